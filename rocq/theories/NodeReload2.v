(** Reloading: the peers of the configuration file, and the theorems *)
From Verif Require Import Base BufferModel NonceModel MethodModel HandshakeModel EthSpec NodeModel NodeSteps NodeWf NodeInv NodeFun NodeFun2 NodeFun3 NodeFun4
  NodeSpec NodeProofs NodeReloadSpec NodeReload.
From Coq Require Import Lia ZifyBool ZifyNat ZifyN Sorted.
Local Open Scope Z_scope.

Definition with_dir (d : bool) (c : pconf) : pconf :=
  mk_pconf (pc_key c) (pc_group c) d (pc_remotes c) (pc_floating c) (pc_ifname c) (pc_mtu c).

Lemma conf_of_new : forall id c st s, conf_of (new_peer id c st s) = c.
Proof.
  intros id c st s. unfold conf_of, configured_remotes, new_peer. cbn [p_key p_group p_dir p_remotes p_floating p_ifname p_mtu].
  rewrite map_map. cbn [r_host r_addr]. destruct c as [k g d r f i m]. cbn [pc_key pc_group pc_dir pc_remotes pc_floating pc_ifname pc_mtu]. f_equal.
  rewrite <- (map_id r) at 2. apply map_ext. intros [h a]. reflexivity.
Qed.
Lemma agrees_conf : forall p, agrees p (conf_of p).
Proof. intros p. repeat split. Qed.
Lemma agrees_of : forall p p' c, conf_of p' = conf_of p -> agrees p c -> agrees p' c.
Proof.
  intros p p' c E (A1 & A2 & A3 & A4 & A5). unfold agrees.
  pose proof (f_equal pc_key E) as E1. pose proof (f_equal pc_group E) as E2. pose proof (f_equal pc_remotes E) as E3.
  pose proof (f_equal pc_floating E) as E4. pose proof (f_equal pc_ifname E) as E5. unfold conf_of in *. cbn in *.
  repeat split; congruence.
Qed.
Lemma agrees_new : forall id c st s, agrees (new_peer id c st s) c.
Proof. intros id c st s. pose proof (agrees_conf (new_peer id c st s)) as A. rewrite conf_of_new in A. exact A. Qed.

Lemma bytes_eqb_iff : forall a b, bytes_eqb a b = true <-> a = b.
Proof. exact bytes_eqb_true. Qed.
Lemma opt_eqb_iff : forall a b, opt_bytes_eqb a b = true <-> a = b.
Proof.
  intros [a|] [b|]; cbn; split; intros H; try discriminate; try reflexivity.
  - apply bytes_eqb_iff in H. congruence.
  - injection H as <-. apply bytes_eqb_iff. reflexivity.
Qed.
Lemma remotes_iff : forall l m, remotes_equal l m = true <-> map (fun r => (r_host r, r_addr r)) l = m.
Proof.
  induction l as [|r l IH]; intros [|[h a] m]; cbn [remotes_equal map]; split; intros H; try discriminate; try reflexivity.
  - apply Bool.andb_true_iff in H. destruct H as [H H3]. apply Bool.andb_true_iff in H. destruct H as [H1 H2].
    apply N.eqb_eq in H1. apply opt_eqb_iff in H2. apply IH in H3. congruence.
  - injection H as H1 H2 H3. rewrite H2, N.eqb_refl, (proj2 (opt_eqb_iff _ _) H1), (proj2 (IH _) H3). reflexivity.
Qed.
Lemma equal_agrees : forall p c, p_key p = pc_key c -> (configs_equal p c = true <-> agrees p c).
Proof.
  intros p c Ek. unfold configs_equal, agrees, configured_remotes, group_eqb. rewrite !Bool.andb_true_iff, opt_eqb_iff, remotes_iff, Bool.eqb_true_iff.
  destruct (list_eq_dec Nat.eq_dec (p_group p) (pc_group c)) as [E|E]; split; intros H; try tauto.
  destruct H as [[[H _] _] _]. discriminate.
Qed.

(** ** The peers of the configuration file *)
Definition is_main (p : peer) : Prop := is_dynamic p = false /\ p_dir p = false.
Record J (S : list pconf) (n : node) : Prop := mk_J {
  j_nd : NoDup (map pc_key S);
  j_dir : forall c, In c S -> pc_dir c = false;
  j_new : forall p, In p (n_peers n) -> p_conf p <> CNew;
  j_main : forall c, (exists p, In p (n_peers n) /\ is_main p /\ conf_of p = c) <-> In c S
}.

Lemma J_peers : forall S n n', n_peers n' = n_peers n -> J S n -> J S n'.
Proof. intros S n n' E [A B C D]. constructor; try assumption; intros x; rewrite E; [apply C | apply D]. Qed.
Lemma main_eq : forall p p', conf_of p' = conf_of p -> p_conf p' = p_conf p -> is_main p -> is_main p'.
Proof. intros p p' E1 E2 [A B]. split; [rewrite (dyn_conf_eq _ _ E2); exact A | apply (f_equal pc_dir) in E1; cbn in E1; congruence]. Qed.
Lemma J_kept : forall S n n', kept_by n n' -> (forall p, In p (n_peers n') -> is_dynamic p = true -> p_conf p <> CNew) -> J S n -> J S n'.
Proof.
  intros S n n' [K1 K2] _ [A B C D]. constructor; [exact A | exact B | |].
  - intros p Hp E. assert (Hd : is_dynamic p = false) by (unfold is_dynamic; rewrite E; reflexivity).
    destruct (K2 p Hp Hd) as (q & Hq & _ & _ & E2). apply (C q Hq). congruence.
  - intros c. rewrite <- D. split; intros (p & Hp & Hm & Ec).
    + destruct (K2 p Hp (proj1 Hm)) as (q & Hq & _ & E1 & E2). exists q. split; [exact Hq|]. split; [|congruence].
      apply (main_eq p q); [congruence | congruence | exact Hm].
    + destruct (K1 p Hp (proj1 Hm)) as (q & Hq & _ & E1 & E2). exists q. split; [exact Hq|]. split; [|congruence].
      apply (main_eq p q); [congruence | congruence | exact Hm].
Qed.

Section Reload.
Variable P : params.

Lemma in_key : forall n p, inv0 P n -> In p (n_peers n) -> F n (p_key p) = Some p.
Proof. intros n p I H. apply in_F; [apply (wf_key _ (i_wf _ _ I)) | exact H]. Qed.

Lemma static_adds_key : forall l x n n',
  each (fun c => r <- peer_add P (mk_pconf (pc_key c) (pc_group c) false (pc_remotes c) (pc_floating c) (pc_ifname c) (pc_mtu c)) CNew ;;
                  match r with AddFailed => exit_fatal | _ => ret tt end) l n = Ok (x, n') -> inv0 P n ->
  (forall p, In p (n_peers n) -> p_conf p = CNew) ->
  inv0 P n' /\ (forall p, In p (n_peers n') -> p_conf p = CNew) /\ NoDup (map pc_key l) /\
  (forall c, In c l -> F n (pc_key c) = None) /\
  (forall c, (exists p, In p (n_peers n') /\ conf_of p = c) <-> (exists p, In p (n_peers n) /\ conf_of p = c) \/ In c (map (with_dir false) l)).
Proof.
  induction l as [|c l IH]; intros x n n' H I HC; cbn [each] in H.
  - apply ret_ok in H. destruct H as [_ ->]. split; [exact I|]. split; [exact HC|]. split; [apply NoDup_nil|]. split; [intros c []|].
    intros c. cbn [map In]. tauto.
  - bind H as u m H1. bind H1 as r m1 H2.
    assert (Em : m = m1 /\ r <> AddFailed) by (destruct r; try discriminate; apply ret_ok in H1; split; [exact (proj2 H1) | discriminate | exact (proj2 H1) | discriminate]).
    clear H1. destruct Em as [-> Hr].
    assert (A : F n (pc_key c) = None /\ exists id s, inv0 P m1 /\ n_peers m1 = n_peers n ++ [new_peer id (with_dir false c) CNew s]).
    { unfold peer_add in H2. bind H2 as ps m2 H3. apply gets_ok in H3. destruct H3 as [-> ->]. cbn [pc_key] in H2.
      fold (F n (pc_key c)) in H2. destruct (F n (pc_key c)) as [o|] eqn:Ek.
      - exfalso. pose proof (proj1 (F_in _ _ _ Ek)) as Hin. rewrite (HC o Hin) in H2. bind H2 as u2 m2 H3. apply ret_ok in H2. apply Hr. symmetry. exact (proj1 H2).
      - split; [reflexivity|]. bind H2 as id m2 H3. apply ret_ok in H2. destruct H2 as [_ ->].
        destruct (insert_key P _ _ _ _ H3 I Ek) as (I2 & _). destruct (insert_new P _ _ _ _ _ H3 I) as (_ & E & _).
        exists id, (k_serial (n_cur n)). split; [exact I2|]. rewrite E. reflexivity. }
    destruct A as (Fc & id & s & I1 & Ep).
    destruct (IH _ _ _ H I1) as (I2 & C2 & N2 & F2 & M2).
    { intros p Hp. rewrite Ep in Hp. apply in_app_or in Hp. destruct Hp as [Hp | [<- | []]]; [exact (HC p Hp) | reflexivity]. }
    assert (Fm : F m1 (pc_key c) <> None).
    { intros X. assert (Y : F m1 (p_key (new_peer id (with_dir false c) CNew s)) = Some (new_peer id (with_dir false c) CNew s)) by (apply in_key; [exact I1 | rewrite Ep; apply in_or_app; right; left; reflexivity]).
      change (p_key (new_peer id (with_dir false c) CNew s)) with (pc_key c) in Y. congruence. }
    split; [exact I2|]. split; [exact C2|]. split; [|split].
    + cbn [map]. constructor; [|exact N2]. intros X. apply in_map_iff in X. destruct X as (c2 & E & X). apply F2 in X. rewrite E in X. contradiction.
    + intros c2 [<- | Hc2]; [exact Fc|]. specialize (F2 c2 Hc2). apply F_none. intros p Hp E.
      assert (Y : F m1 (p_key p) = Some p) by (apply in_key; [exact I1 | rewrite Ep; apply in_or_app; left; exact Hp]). congruence.
    + intros c2. rewrite M2. cbn [map In]. split.
      * intros [(p & Hp & E) | X]; [|tauto]. rewrite Ep in Hp. apply in_app_or in Hp. destruct Hp as [Hp | [<- | []]].
        -- left. exists p. tauto.
        -- right. left. rewrite <- E. rewrite conf_of_new. reflexivity.
      * intros [(p & Hp & E) | [X|X]]; [left; exists p; split; [rewrite Ep; apply in_or_app; left; exact Hp | exact E] | | tauto].
        left. exists (new_peer id (with_dir false c) CNew s). split; [rewrite Ep; apply in_or_app; right; left; reflexivity | rewrite conf_of_new; exact X].
Qed.

(** ** One key *)
Lemma of_key_in : forall k l c, In c (of_key k l) <-> In c l /\ pc_key c = k.
Proof.
  intros k l c. unfold of_key. rewrite filter_In. destruct (bytes_dec (pc_key c) k); split; intros H; try tauto; destruct H; discriminate.
Qed.

(** two definitions: disabled *)
Lemma ksteps_disabled : forall b l o o', ksteps b l o o' -> forall p, o = Some p -> p_conf p = CDisabled -> exists p', o' = Some p' /\ p_conf p' = CDisabled /\
  p_id p' = p_id p /\ conf_of p' = conf_of p.
Proof.
  intros b l o o' H. induction H as [o|c l o o1 o2 H _ IH]; intros p E Ec.
  - exists p. split; [exact E|]. split; [exact Ec|]. split; reflexivity.
  - subst o. inversion H as [|o0 Hc|o0 Hs He|o0 id s Hc Hid]; subst; [|congruence|destruct Hc as [X|[X _]]; congruence].
    destruct (IH _ eq_refl eq_refl) as (p' & A & B & C & D). exists p'. split; [exact A|]. split; [exact B|]. split; [exact C | exact D].
Qed.
Lemma ksteps_new : forall b l o o', ksteps b l o o' -> forall p, o = Some p -> p_conf p = CNew ->
  exists p', o' = Some p' /\ p_id p' = p_id p /\ conf_of p' = conf_of p /\ ((l = [] /\ p' = p) \/ (l <> [] /\ p_conf p' = CDisabled)).
Proof.
  intros b l o o' H. destruct H as [o|c l o o1 o2 H H2]; intros p E Ec.
  - exists p. split; [exact E|]. split; [reflexivity|]. split; [reflexivity | left; split; reflexivity].
  - subst o. inversion H as [|o0 Hc|o0 Hs He|o0 id s Hc Hid]; subst; [|congruence|destruct Hc as [X|[X _]]; congruence].
    destruct (ksteps_disabled _ _ _ _ H2 _ eq_refl eq_refl) as (p' & A & B & C & D). exists p'. split; [exact A|]. split; [exact C|]. split; [exact D|].
    right. split; [discriminate | exact B].
Qed.
(** the first definition counts *)
Lemma ksteps_first : forall b c l o o', ksteps b (c :: l) o o' -> (forall p, o = Some p -> p_conf p = CStatic \/ p_conf p = CDynamic) ->
  (forall p, o = Some p -> p_key p = pc_key c) ->
  exists p', o' = Some p' /\ ((l = [] /\ p_conf p' = CNew) \/ (l <> [] /\ p_conf p' = CDisabled)) /\
   ((exists p, o = Some p /\ p_conf p = CStatic /\ agrees p c /\ p_id p' = p_id p /\ conf_of p' = conf_of p /\ (l = [] -> p' = set_p_conf CNew p)) \/
    ((forall p, o = Some p -> p_conf p = CDynamic \/ ~ agrees p c) /\ (b <= p_id p')%N /\ conf_of p' = c)).
Proof.
  intros b c l o o' H Ho Hk. inversion H as [|x y z o1 w H1 H2]; subst.
  assert (G : forall p1, o1 = Some p1 -> p_conf p1 = CNew -> exists p', o' = Some p' /\ ((l = [] /\ p_conf p' = CNew) \/ (l <> [] /\ p_conf p' = CDisabled)) /\
    p_id p' = p_id p1 /\ conf_of p' = conf_of p1 /\ (l = [] -> p' = p1)).
  { intros p1 E Ec. destruct (ksteps_new _ _ _ _ H2 p1 E Ec) as (p' & A & B & C & D). exists p'. split; [exact A|]. split; [|split; [exact B|]].
    - destruct D as [[D1 D2] | D]; [left; split; [exact D1 | congruence] | right; exact D].
    - split; [exact C|]. intros El. destruct D as [[_ D] | [D _]]; [exact D | contradiction]. }
  inversion H1 as [id s Hid|o0 H0|o0 H0 He|o0 id s H0 Hid]; subst.
  - destruct (G _ eq_refl eq_refl) as (p' & A & B & C & D & E). exists p'. split; [exact A|]. split; [exact B|]. right. split; [discriminate|].
    split; [rewrite C; assumption | rewrite D; apply conf_of_new].
  - destruct (Ho _ eq_refl) as [X|X]; destruct H0 as [Y|Y]; congruence.
  - destruct (G _ eq_refl eq_refl) as (p' & A & B & C & D & E). exists p'. split; [exact A|]. split; [exact B|]. left. exists o0. split; [reflexivity|].
    split; [assumption|]. split; [apply equal_agrees; [apply Hk; reflexivity | assumption]|]. split; [exact C|]. split; [exact D | exact E].
  - destruct (G _ eq_refl eq_refl) as (p' & A & B & C & D & E). exists p'. split; [exact A|]. split; [exact B|]. right. split; [|split; [rewrite C; assumption | rewrite D; apply conf_of_new]].
    intros p Ep. injection Ep as <-. destruct H0 as [X | [X Y]]; [left; exact X | right]. intros Ag. apply equal_agrees in Ag; [congruence | apply Hk; reflexivity].
Qed.

(** ** A reload *)
Lemma S_unique : forall S c c', NoDup (map pc_key S) -> In c S -> In c' S -> pc_key c = pc_key c' -> c = c'.
Proof.
  induction S as [|x S IH]; intros c c' Hn Hc Hc' E; [destruct Hc|]. cbn [map] in Hn. inversion Hn as [|a b H1 H2 H3]; subst.
  destruct Hc as [<- | Hc], Hc' as [<- | Hc']; [reflexivity | | | exact (IH c c' H2 Hc Hc' E)]; exfalso; apply H1; [rewrite E | rewrite <- E]; apply in_map; assumption.
Qed.
Lemma of_key_S : forall S c, NoDup (map pc_key S) -> In c S -> of_key (pc_key c) S = [c].
Proof.
  induction S as [|x S IH]; intros c Hn Hc; [destruct Hc|]. cbn [map] in Hn. inversion Hn as [|a b H1 H2 H3]; subst. rewrite of_key_cons.
  destruct Hc as [-> | Hc].
  - destruct (bytes_dec (pc_key c) (pc_key c)); [|congruence]. f_equal. destruct (of_key (pc_key c) S) as [|y l] eqn:E; [reflexivity|].
    assert (Hy : In y (of_key (pc_key c) S)) by (rewrite E; left; reflexivity). apply of_key_in in Hy. exfalso. apply H1. rewrite <- (proj2 Hy). apply in_map. apply Hy.
  - destruct (bytes_dec (pc_key x) (pc_key c)) as [E|_]; [|exact (IH c H2 Hc)]. exfalso. apply H1. rewrite E. apply in_map. exact Hc.
Qed.
Lemma of_key_app : forall k a b, of_key k (a ++ b) = of_key k a ++ of_key k b.
Proof. intros k a b. unfold of_key. apply filter_app. Qed.

Definition result (n : node) (k : bytes) (K : list pconf) (o' : option peer) : Prop :=
  match K with
  | [] => match F n k with Some p => if is_dynamic p then o' = Some p else o' = None | None => o' = None end
  | [c] => exists p', o' = Some p' /\ agrees p' c /\ p_dir p' = pc_dir c /\
      ((k = c_own P /\ p_conf p' = CDisabled /\ is_established p' = false) \/ (k <> c_own P /\ p_conf p' = CStatic)) /\
      ((exists p, F n k = Some p /\ p_conf p <> CDynamic /\ agrees p c /\ p_id p' = p_id p /\ conf_of p' = conf_of p /\ (k <> c_own P -> is_established p = true -> p' = set_p_conf CStatic p)) \/
       (pc_dir c = true /\ (n_next_id n <= p_id p')%N /\ conf_of p' = c /\ (forall p, F n k = Some p -> p_conf p = CDynamic \/ ~ agrees p c)))
  | _ => exists p', o' = Some p' /\ p_conf p' = CDisabled /\ is_established p' = false /\
      ((exists p, F n k = Some p /\ p_conf p <> CDynamic /\ conf_of p' = conf_of p) \/ (In (conf_of p') K /\ p_dir p' = true /\ (n_next_id n <= p_id p')%N /\
        forall p, F n k = Some p -> p_conf p = CDynamic \/ p_dir p = true))
  end.

Lemma dir_conf : forall p p', conf_of p' = conf_of p -> p_dir p' = p_dir p.
Proof. intros p p' E. apply (f_equal pc_dir) in E. exact E. Qed.
Lemma cstep_disabled : forall p o, cstep P p o -> p_conf p = CDisabled -> exists p', o = Some p' /\ p_conf p' = CDisabled /\ is_established p' = false /\ conf_of p' = conf_of p /\ p_id p' = p_id p.
Proof. intros p o H E. destruct H; try congruence. exists p'. repeat split; assumption. Qed.
Lemma cstep_new : forall p o k, cstep P p o -> p_conf p = CNew -> p_key p = k -> exists p', o = Some p' /\ conf_of p' = conf_of p /\ p_id p' = p_id p /\
  ((k = c_own P /\ p_conf p' = CDisabled /\ is_established p' = false) \/ (k <> c_own P /\ p_conf p' = CStatic)) /\
  (k <> c_own P -> is_established p = true -> p' = set_p_conf CStatic p).
Proof.
  intros p o k H E Ek. destruct H; try congruence.
  - destruct H0 as [H0|H0]; [congruence|]. exists p'. split; [reflexivity|]. split; [assumption|]. split; [assumption|]. split; [left; split; [congruence | split; assumption] | congruence].
  - exists p'. split; [reflexivity|]. split; [assumption|]. split; [assumption|]. split; [right; split; [congruence | assumption]|]. intros _. assumption.
Qed.

Lemma reload_key : forall S d D x n n', J S n -> inv0 P n -> load_peer_dirs P d D n = Ok (x, n') -> (forall c, In c D -> pc_dir c = true) ->
  forall k, result n k (of_key k (S ++ D)) (F n' k).
Proof.
  intros S d D x n n' HJ I H HD k. destruct (load_key P _ _ _ _ _ H I) as (I' & HK). destruct (HK k) as (o & Hs & Hc). clear HK H.
  rewrite of_key_app.
  assert (HDk : forall c, In c (of_key k D) -> pc_dir c = true /\ pc_key c = k) by (intros c X; apply of_key_in in X; split; [apply HD; apply X | apply X]).
  destruct (F n k) as [p|] eqn:Ek; cbn [option_map] in Hs.
  - pose proof (F_in _ _ _ Ek) as [Hin Ekey]. pose proof (j_new _ _ HJ p Hin) as Hnew.
    destruct (is_dynamic p) eqn:Ed; [|destruct (p_dir p) eqn:Edir].
    + (* dynamic *)
      assert (Epr : pre_reload p = p) by (unfold pre_reload; rewrite Ed; reflexivity). rewrite Epr in Hs.
      apply is_dyn_true in Ed.
      assert (ES : of_key k S = []).
      { destruct (of_key k S) as [|c l] eqn:E; [reflexivity|]. exfalso. assert (X : In c (of_key k S)) by (rewrite E; left; reflexivity).
        apply of_key_in in X. destruct X as [X1 X2]. apply (j_main _ _ HJ) in X1. destruct X1 as (q & Hq & [Hq1 Hq2] & Eq).
        assert (q = p) by (eapply keys_inj; [exact (wf_key _ (i_wf _ _ I)) | exact Hq | exact Hin | rewrite Ekey, <- X2, <- Eq; reflexivity]).
        subst q. unfold is_dynamic in Hq1. rewrite Ed in Hq1. discriminate. }
      rewrite ES. cbn [app]. destruct (of_key k D) as [|c l] eqn:EK.
      * inversion Hs; subst o. cbn [result]. rewrite Ek. unfold is_dynamic. rewrite Ed. inversion Hc as [X|X|p2 X|p2 X]; try congruence; destruct X; congruence.
      * destruct (HDk c (or_introl eq_refl)) as [Dc Kc].
        destruct (ksteps_first _ _ _ _ _ Hs) as (p1 & -> & St & Or); [intros q Eq; injection Eq as <-; right; exact Ed | intros q Eq; injection Eq as <-; congruence|].
        destruct Or as [(q & Eq & X & _) | (_ & Ob & Oc)]; [injection Eq as <-; congruence|].
        destruct St as [[-> St] | [Hl St]].
        -- destruct (cstep_new _ _ k Hc St) as (p' & E' & C1 & C2 & C3 & C4); [rewrite <- Kc, <- Oc; reflexivity|].
           cbn [result]. exists p'. split; [exact E'|]. split; [apply (agrees_of p1 p' c C1); rewrite <- Oc; apply agrees_conf|]. split; [rewrite (dir_conf _ _ C1), <- Oc; reflexivity|].
           split; [exact C3|]. right. split; [exact Dc|]. split; [congruence|]. split; [congruence|]. intros q Eq. left. congruence.
        -- destruct (cstep_disabled _ _ Hc St) as (p' & E' & C1 & C2 & C3 & C4). destruct l as [|c2 l]; [contradiction|]. cbn [result].
           exists p'. split; [exact E'|]. split; [exact C1|]. split; [exact C2|]. right. split; [left; congruence|]. split; [rewrite (dir_conf _ _ C3); rewrite <- Dc, <- Oc; reflexivity|]. split; [congruence|].
           intros q Eq. left. congruence.
    + (* from a directory *)
      assert (Epr : exists c0, pre_reload p = set_p_conf c0 p /\ p_conf (pre_reload p) = CStatic).
      { destruct (pre_reload_const p) as (c0 & X & _). exists c0. split; [exact X|]. unfold pre_reload. rewrite Ed, Edir. cbn [negb]. unfold is_dynamic in Ed. destruct (p_conf p) eqn:E; try reflexivity; [congruence | exact E | discriminate]. }
      destruct Epr as (c0 & Epr & Est). assert (Econf : conf_of (pre_reload p) = conf_of p) by (rewrite Epr; reflexivity).
      assert (Eidp : p_id (pre_reload p) = p_id p) by (rewrite Epr; reflexivity). assert (Eestp : is_established (pre_reload p) = is_established p) by (rewrite Epr; reflexivity).
      assert (ES : of_key k S = []).
      { destruct (of_key k S) as [|c l] eqn:E; [reflexivity|]. exfalso. assert (X : In c (of_key k S)) by (rewrite E; left; reflexivity).
        apply of_key_in in X. destruct X as [X1 X2]. apply (j_main _ _ HJ) in X1. destruct X1 as (q & Hq & [Hq1 Hq2] & Eq).
        assert (q = p) by (eapply keys_inj; [exact (wf_key _ (i_wf _ _ I)) | exact Hq | exact Hin | rewrite Ekey, <- X2, <- Eq; reflexivity]).
        subst q. congruence. }
      assert (Hdn : p_conf p <> CDynamic) by (intros X; apply is_dyn_true in X; congruence).
      rewrite ES. cbn [app]. destruct (of_key k D) as [|c l] eqn:EK.
      * inversion Hs; subst o. cbn [result]. rewrite Ek, Ed. inversion Hc as [X|X|p2 X|p2 X]; try congruence; destruct X; congruence.
      * destruct (HDk c (or_introl eq_refl)) as [Dc Kc].
        destruct (ksteps_first _ _ _ _ _ Hs) as (p1 & -> & St & Or);
          [intros q Eq; injection Eq as <-; left; exact Est | intros q Eq; injection Eq as <-; rewrite Epr; cbn [p_key set_p_conf]; congruence|].
        assert (Hk1 : p_key p1 = k).
        { destruct Or as [(q & Eq & _ & _ & _ & X & _) | (_ & _ & X)]; [injection Eq as <-; rewrite (conf_key _ _ X), (conf_key _ _ Econf); exact Ekey | rewrite <- Kc, <- X; reflexivity]. }
        destruct St as [[-> St] | [Hl St]].
        -- destruct (cstep_new _ _ k Hc St Hk1) as (p' & E' & C1 & C2 & C3 & C4). cbn [result]. exists p'. split; [exact E'|].
           destruct Or as [(q & Eq & _ & Ag & Oi & Oc & Oe) | (On & Ob & Oc)].
           ++ injection Eq as <-. specialize (Oe eq_refl). assert (Agp : agrees p c) by (apply (agrees_of (pre_reload p) p c); [congruence | exact Ag]).
              split; [apply (agrees_of p p' c); [congruence | exact Agp]|]. split; [rewrite (dir_conf p p'); congruence|]. split; [exact C3|].
              left. exists p. split; [exact Ek|]. split; [exact Hdn|]. split; [exact Agp|]. split; [congruence|]. split; [congruence|].
              intros Nk Hest. rewrite C4; [|exact Nk|]; [rewrite Oe, Epr; reflexivity | rewrite Oe; exact (eq_trans Eestp Hest)].
           ++ split; [apply (agrees_of p1 p' c C1); rewrite <- Oc; apply agrees_conf|]. split; [rewrite (dir_conf _ _ C1), <- Oc; reflexivity|]. split; [exact C3|].
              right. split; [exact Dc|]. split; [congruence|]. split; [congruence|]. intros q Eq. rewrite Ek in Eq. injection Eq as <-. right. intros Ag.
              destruct (On _ eq_refl) as [X|X]; [congruence|]. apply X. apply (agrees_of p (pre_reload p) c Econf Ag).
        -- destruct (cstep_disabled _ _ Hc St) as (p' & E' & C1 & C2 & C3 & C4). destruct l as [|c2 l]; [contradiction|]. cbn [result].
           exists p'. split; [exact E'|]. split; [exact C1|]. split; [exact C2|].
           destruct Or as [(q & Eq & _ & Ag & Oi & Oc & Oe) | (On & Ob & Oc)].
           ++ left. injection Eq as <-. exists p. split; [exact Ek|]. split; [exact Hdn | congruence].
           ++ right. split; [left; congruence|]. split; [rewrite (dir_conf _ _ C3); rewrite <- Dc, <- Oc; reflexivity|]. split; [congruence|].
              intros q Eq. right. congruence.
    + (* from the configuration file *)
      assert (Epr : pre_reload p = set_p_conf CNew p) by (unfold pre_reload; rewrite Ed, Edir; reflexivity). rewrite Epr in Hs.
      assert (HS : In (conf_of p) S) by (apply (j_main _ _ HJ); exists p; split; [exact Hin|]; split; [split; assumption | reflexivity]).
      assert (ES : of_key k S = [conf_of p]) by (rewrite <- Ekey; exact (of_key_S S (conf_of p) (j_nd _ _ HJ) HS)).
      assert (Hdn : p_conf p <> CDynamic) by (intros X; apply is_dyn_true in X; congruence).
      rewrite ES. cbn [app]. destruct (ksteps_new _ _ _ _ Hs _ eq_refl eq_refl) as (p1 & -> & Oi & Oc & Or).
      destruct Or as [[El ->] | [Hl St]].
      * rewrite El. cbn [result]. destruct (cstep_new _ _ k Hc eq_refl Ekey) as (p' & E' & C1 & C2 & C3 & C4). exists p'. split; [exact E'|].
        rewrite conf_set in C1. split; [apply (agrees_of p p' _ C1); apply agrees_conf|]. split; [rewrite (dir_conf _ _ C1); reflexivity|]. split; [exact C3|].
        left. exists p. split; [exact Ek|]. split; [exact Hdn|]. split; [apply agrees_conf|]. split; [exact C2|]. split; [exact C1|]. intros Nk Hest. rewrite C4; [reflexivity | exact Nk | exact Hest].
      * destruct (cstep_disabled _ _ Hc St) as (p' & E' & C1 & C2 & C3 & C4). destruct (of_key k D) as [|c2 l]; [contradiction|]. cbn [result].
        exists p'. split; [exact E'|]. split; [exact C1|]. split; [exact C2|]. left. exists p. split; [exact Ek|]. split; [exact Hdn|]. rewrite conf_set in Oc. congruence.
  - assert (ES : of_key k S = []).
    { destruct (of_key k S) as [|c l] eqn:E; [reflexivity|]. exfalso. assert (X : In c (of_key k S)) by (rewrite E; left; reflexivity).
      apply of_key_in in X. destruct X as [X1 X2]. apply (j_main _ _ HJ) in X1. destruct X1 as (q & Hq & _ & Eq).
      rewrite (F_some n k q (wf_key _ (i_wf _ _ I)) Hq) in Ek; [discriminate|]. rewrite <- X2, <- Eq. reflexivity. }
    rewrite ES. cbn [app]. destruct (of_key k D) as [|c l] eqn:EK.
    + inversion Hs; subst o. cbn [result]. rewrite Ek. exact Hc.
    + destruct (HDk c (or_introl eq_refl)) as [Dc Kc].
      destruct (ksteps_first _ _ _ _ _ Hs) as (p1 & -> & St & Or); [discriminate | discriminate|].
      destruct Or as [(q & Eq & _) | (_ & Ob & Oc)]; [discriminate|].
      destruct St as [[-> St] | [Hl St]].
      * destruct (cstep_new _ _ k Hc St) as (p' & E' & C1 & C2 & C3 & C4); [rewrite <- Kc, <- Oc; reflexivity|].
        cbn [result]. exists p'. split; [exact E'|]. split; [apply (agrees_of p1 p' c C1); rewrite <- Oc; apply agrees_conf|]. split; [rewrite (dir_conf _ _ C1), <- Oc; reflexivity|].
        split; [exact C3|]. right. split; [exact Dc|]. split; [congruence|]. split; [congruence|]. intros q Eq. congruence.
      * destruct (cstep_disabled _ _ Hc St) as (p' & E' & C1 & C2 & C3 & C4). destruct l as [|c2 l]; [contradiction|]. cbn [result].
        exists p'. split; [exact E'|]. split; [exact C1|]. split; [exact C2|]. right. split; [left; congruence|]. split; [rewrite (dir_conf _ _ C3); rewrite <- Dc, <- Oc; reflexivity|]. split; [congruence|].
        intros q Eq. congruence.
Qed.

(** ** The invariant *)
Lemma result_new : forall n k K o' p', result n k K o' -> o' = Some p' -> (forall p, F n k = Some p -> p_conf p <> CNew) -> p_conf p' <> CNew.
Proof.
  intros n k K o' p' H E Hn. destruct K as [|c [|c2 K]]; cbn [result] in H.
  - destruct (F n k) as [p|]; [|congruence]. destruct (is_dynamic p); [|congruence]. rewrite H in E. injection E as <-. apply Hn. reflexivity.
  - destruct H as (q & Eq & _ & _ & H & _). rewrite Eq in E. injection E as <-. destruct H as [(_ & X & _) | (_ & X)]; congruence.
  - destruct H as (q & Eq & H & _). rewrite Eq in E. injection E as <-. congruence.
Qed.

Lemma result_conf : forall n k K o' p', result n k K o' -> o' = Some p' ->
  (exists p, F n k = Some p /\ conf_of p' = conf_of p /\ (is_dynamic p' = is_dynamic p)) \/ p_dir p' = true.
Proof.
  intros n k K o' p' H E.
  assert (Dy : forall p q : peer, p_conf p <> CDynamic -> p_conf q <> CDynamic -> is_dynamic p = is_dynamic q).
  { intros p q A B. unfold is_dynamic. destruct (p_conf p), (p_conf q); congruence. }
  destruct K as [|c [|c2 K]]; cbn [result] in H.
  - destruct (F n k) as [p|]; [|congruence]. destruct (is_dynamic p); [|congruence]. rewrite H in E. injection E as <-. left. exists p. repeat split.
  - destruct H as (q & Eq & Ag & Ed & Ec & Or). rewrite Eq in E. injection E as <-. destruct Or as [(p & Hp & Hd & _ & Ei & Hcf & _) | (X & _)]; [|right; congruence].
    left. exists p. split; [exact Hp|]. split; [exact Hcf|]. apply Dy; [|exact Hd]. destruct Ec as [(_ & X & _) | (_ & X)]; congruence.
  - destruct H as (q & Eq & Ec & _ & Or). rewrite Eq in E. injection E as <-. destruct Or as [(p & Hp & Hd & X) | (_ & X & _)]; [|right; exact X].
    left. exists p. split; [exact Hp|]. split; [exact X|]. apply Dy; [congruence | exact Hd].
Qed.

Lemma J_load : forall S d D x n n', J S n -> inv0 P n -> load_peer_dirs P d D n = Ok (x, n') -> (forall c, In c D -> pc_dir c = true) -> inv0 P n' -> J S n'.
Proof.
  intros S d D x n n' HJ I H HD I'. pose proof (reload_key _ _ _ _ _ _ HJ I H HD) as R. destruct HJ as [A B C M]. constructor; [exact A | exact B | |].
  - intros p' Hp'. pose proof (in_key n' p' I' Hp') as E. eapply result_new; [apply (R (p_key p')) | exact E|].
    intros p Hp. apply C. apply F_in in Hp. apply Hp.
  - intros c. split.
    + intros (p' & Hp' & [M1 M2] & Ec). pose proof (in_key n' p' I' Hp') as E.
      destruct (result_conf _ _ _ _ p' (R (p_key p')) E) as [(p & Hp & E1 & E2) | X]; [|congruence].
      apply M. exists p. apply F_in in Hp. destruct Hp as [Hp _]. split; [exact Hp|]. split; [|congruence]. split; [congruence|]. rewrite <- M2. symmetry. apply dir_conf. exact E1.
    + intros Hc. pose proof (proj2 (M c) Hc) as (p & Hp & [M1 M2] & Ec). pose proof (R (pc_key c)) as Rk.
      assert (Fp : F n (pc_key c) = Some p) by (apply F_some; [apply (wf_key _ (i_wf _ _ I)) | exact Hp | rewrite <- Ec; reflexivity]).
      assert (Hnd : p_conf p <> CDynamic) by (intros X; apply is_dyn_true in X; congruence).
      assert (Done : forall p', F n' (pc_key c) = Some p' -> conf_of p' = conf_of p -> p_conf p' <> CDynamic -> exists p, In p (n_peers n') /\ is_main p /\ conf_of p = c).
      { intros p' Hp' E X. exists p'. split; [apply F_in in Hp'; apply Hp'|]. split; [|congruence]. split; [|rewrite (dir_conf _ _ E); exact M2].
        unfold is_dynamic. destruct (p_conf p'); congruence. }
      rewrite of_key_app, (of_key_S S c A Hc) in Rk. cbn [app] in Rk. destruct (of_key (pc_key c) D) as [|c2 l].
      * cbn [result] in Rk. destruct Rk as (p' & E & Ag & Ed & Ek & Or). apply (Done p' E).
        -- destruct Or as [(q & Hq & _ & _ & _ & Ecf & _) | (X & _)]; [congruence|]. rewrite (B c Hc) in X. discriminate.
        -- destruct Ek as [(_ & X & _) | (_ & X)]; congruence.
      * cbn [result] in Rk. destruct Rk as (p' & E & Ed & _ & Or). apply (Done p' E); [|congruence].
        destruct Or as [(q & Hq & _ & Ecf) | (_ & _ & _ & X)]; [congruence|]. destruct (X p Fp); congruence.
Qed.

Lemma J_start : forall static dirs x n n', start P static dirs n = Ok (x, n') -> inv0 P n -> n_peers n = [] -> inv0 P n' /\ J (map (with_dir false) static) n'.
Proof.
  intros static dirs x n n' H I Hnil. unfold start in H. bind H as u m H1.
  destruct (static_adds_key _ _ _ _ H1 I) as (I1 & C1 & N1 & _ & M1); [rewrite Hnil; intros p []|]. clear H1.
  bind H as u2 m2 H2. destruct (configure_peers_key P _ _ _ _ H2 I1) as (I2 & _ & K2). clear H2.
  destruct (load_key P _ _ _ _ _ H I2) as (I3 & _). split; [exact I3|].
  assert (HD : forall c, In c (map (with_dir true) dirs) -> pc_dir c = true) by (intros c Hc; apply in_map_iff in Hc; destruct Hc as (c0 & <- & _); reflexivity).
  eapply J_load; [|exact I2 | exact H | exact HD | exact I3].
  assert (Back : forall p', In p' (n_peers m2) -> exists p, In p (n_peers m) /\ cstep P p (Some p')).
  { intros p' Hp'. pose proof (in_key m2 p' I2 Hp') as E. specialize (K2 (p_key p')). destruct (F m (p_key p')) as [p|] eqn:Ek; [|congruence].
    exists p. split; [apply F_in in Ek; apply Ek | rewrite <- E; exact K2]. }
  constructor.
  - rewrite map_map. exact N1.
  - intros c Hc. apply in_map_iff in Hc. destruct Hc as (c0 & <- & _). reflexivity.
  - intros p' Hp'. destruct (Back p' Hp') as (p & Hp & Cs). inversion Cs; try congruence.
  - intros c. split.
    + intros (p' & Hp' & _ & Ec). destruct (Back p' Hp') as (p & Hp & Cs). destruct (cstep_key P _ _ Cs p' eq_refl) as [_ E].
      destruct (proj1 (M1 c)) as [(q & Hq & _) | X]; [exists p; split; [exact Hp | congruence] | rewrite Hnil in Hq; destruct Hq | exact X].
    + intros Hc. destruct (proj2 (M1 c) (or_intror Hc)) as (p & Hp & Ec). specialize (K2 (p_key p)). rewrite (in_key m p I1 Hp) in K2.
      destruct (cstep_new _ _ (p_key p) K2 (C1 p Hp) eq_refl) as (p' & E' & E1 & _ & Ek & _). exists p'. split; [apply F_in in E'; apply E'|].
      split; [|congruence]. split; [|rewrite (dir_conf _ _ E1); apply in_map_iff in Hc; destruct Hc as (c0 & X & _); rewrite <- X in Ec; apply (f_equal pc_dir) in Ec; exact Ec].
      unfold is_dynamic. destruct Ek as [(_ & X & _) | (_ & X)]; rewrite X; reflexivity.
Qed.

Lemma J_handle : forall S ev x n n', handle P ev n = Ok (x, n') -> inv P n -> J S n -> J S n'.
Proof.
  intros S ev x n n' H I HJ. pose proof (handle_to P ev _ _ _ H I) as [[St _] I'].
  assert (Q : f_rl (fl_of ev) = false -> J S n').
  { intros Hr. eapply J_kept; [eapply steps_kept; [exact St | exact Hr | apply I] | | exact HJ]. intros p _ Hd E. unfold is_dynamic in Hd. rewrite E in Hd. discriminate. }
  destruct ev; try (apply Q; reflexivity). clear Q St. cbn [handle] in H. eapply J_load; [exact HJ | apply I | exact H | | apply I'].
  intros c Hc. apply in_map_iff in Hc. destruct Hc as (c0 & <- & _). reflexivity.
Qed.

Lemma J_reach : forall orc now static dirs evs n, execute P now orc static dirs evs = Ok n -> J (map (with_dir false) static) n.
Proof.
  intros orc now static dirs evs n H. unfold execute in H.
  destruct ((start P static dirs;; run P evs) (empty_node (Z.of_N now) orc)) as [[x n1]| | |] eqn:E; try discriminate. injection H as <-.
  bind E as u m H1. pose proof (start_to P EvMaintenance _ _ _ _ _ H1 (empty_inv P _ _) eq_refl) as [_ I].
  destruct (J_start _ _ _ _ _ H1 (empty_inv P _ _) eq_refl) as [_ HJ]. clear H1.
  unfold run in E. revert x m n1 I HJ E. induction evs as [|e evs IH]; intros x m n1 I HJ E; cbn [each] in E.
  - apply ret_ok in E. destruct E as [_ ->]. exact HJ.
  - bind E as u2 m2 H2. unfold step in H2. bind H2 as u3 m3 H3. apply modn_ok in H3.
    assert (I3 : inv P m3) by (rewrite H3; apply inv_tick; exact I).
    assert (J3 : J (map (with_dir false) static) m3) by (rewrite H3; apply (J_peers _ m); [reflexivity | exact HJ]).
    apply (IH x m2 n1); [apply (handle_to P _ _ _ _ H2 I3) | eapply J_handle; eassumption | exact E].
Qed.

(** ** Theorems *)
Lemma of_key_map : forall d k l, of_key k (map (with_dir d) l) = map (with_dir d) (of_key k l).
Proof. intros d k l. induction l as [|c l IH]; [reflexivity|]. cbn [map]. rewrite !of_key_cons. cbn [pc_key with_dir]. destruct (bytes_dec (pc_key c) k); cbn [map]; rewrite IH; reflexivity. Qed.
Lemma agrees_dir : forall d p c, agrees p (with_dir d c) <-> agrees p c.
Proof. intros d p c. unfold agrees. cbn. tauto. Qed.

Definition SD (static defs : list pconf) := map (with_dir false) static ++ map (with_dir true) defs.
Lemma reloads_key : forall static defs n n', reloads P static defs n n' ->
  inv P n /\ inv P n' /\ (exists t, steps P (EvReload defs) fd (tick t n) n') /\ forall k, result n k (of_key k (SD static defs)) (F n' k).
Proof.
  intros static defs n n' (now & orc & dirs & evs & dt & He & Hh). pose proof (reach_inv _ _ _ _ _ _ _ He) as I. pose proof (J_reach _ _ _ _ _ _ He) as HJ.
  destruct (handles_steps _ _ _ _ _ Hh I) as [I1 [[St _] I']]. split; [exact I|]. split; [exact I'|]. split; [exists dt; exact St|].
  unfold handles, step in Hh. bind Hh as u m H1. apply modn_ok in H1. cbn [fst snd handle] in *.
  assert (Em : n_peers m = n_peers n /\ n_next_id m = n_next_id n) by (rewrite H1; split; reflexivity). destruct Em as [Ep En].
  assert (Im : inv0 P m) by (rewrite H1; apply I1).
  intros k. assert (R : result m k (of_key k (SD static defs)) (F n' k)).
  { eapply reload_key; [eapply J_peers; [exact Ep | exact HJ] | exact Im | exact Hh|].
    intros c Hc. apply in_map_iff in Hc. destruct Hc as (c0 & <- & _). reflexivity. }
  assert (EF : F m k = F n k) by (unfold F; rewrite Ep; reflexivity).
  unfold result in *. rewrite EF, En in R. exact R.
Qed.
Lemma of_key_SD : forall k static defs, of_key k (SD static defs) = map (with_dir false) (of_key k static) ++ map (with_dir true) (of_key k defs).
Proof. intros k static defs. unfold SD. rewrite of_key_app, !of_key_map. reflexivity. Qed.

(** the definitions of a key, wherever they are *)
Lemma SD_one : forall k static defs c, of_key k (static ++ defs) = [c] -> exists d, of_key k (SD static defs) = [with_dir d c].
Proof.
  intros k static defs c H. rewrite of_key_app in H. rewrite of_key_SD. destruct (of_key k static) as [|a l].
  - cbn [app map] in *. rewrite H. exists true. reflexivity.
  - cbn [app] in H. injection H as -> H. apply app_eq_nil in H. destruct H as [-> ->]. exists false. reflexivity.
Qed.
Lemma SD_length : forall k static defs, length (of_key k (SD static defs)) = length (of_key k (static ++ defs)).
Proof. intros k static defs. rewrite of_key_SD, of_key_app, !app_length, !map_length. reflexivity. Qed.

Lemma configured_to : forall static defs n n' p, reloads P static defs n n' -> configured n' p ->
  p_key p <> c_own P /\ exists c, of_key (p_key p) (static ++ defs) = [c] /\ agrees p c.
Proof.
  intros static defs n n' p HR [Hin Hc]. destruct (reloads_key _ _ _ _ HR) as (I & I' & _ & R). specialize (R (p_key p)).
  pose proof (in_key n' p (i_0 _ _ I') Hin) as E. rewrite E in R. pose proof (SD_length (p_key p) static defs) as L.
  destruct (of_key (p_key p) (SD static defs)) as [|c [|c2 l]] eqn:EK; cbn [result] in R.
  - exfalso. destruct (F n (p_key p)) as [q|]; [|discriminate]. destruct (is_dynamic q) eqn:Ed; [|discriminate]. injection R as <-. apply is_dyn_true in Ed. congruence.
  - destruct R as (p' & E' & Ag & _ & Ek & _). injection E' as <-. destruct Ek as [(_ & X & _) | (Nk & _)]; [congruence|]. split; [exact Nk|].
    destruct (of_key (p_key p) (static ++ defs)) as [|c0 [|c1 l]] eqn:E0; try discriminate. exists c0. split; [reflexivity|].
    destruct (SD_one _ _ _ _ E0) as [d X]. rewrite EK in X. injection X as ->. exact (proj1 (agrees_dir _ _ _) Ag).
  - exfalso. destruct R as (p' & E' & X & _). congruence.
Qed.
Lemma configured_from : forall static defs n n' k c, reloads P static defs n n' -> of_key k (static ++ defs) = [c] -> k <> c_own P ->
  exists p, configured n' p /\ agrees p c.
Proof.
  intros static defs n n' k c HR E0 Nk. destruct (reloads_key _ _ _ _ HR) as (I & I' & _ & R). specialize (R k).
  destruct (SD_one _ _ _ _ E0) as [d X]. rewrite X in R. cbn [result] in R. destruct R as (p' & E' & Ag & _ & Ek & _).
  exists p'. split; [|exact (proj1 (agrees_dir _ _ _) Ag)]. split; [apply F_in in E'; apply E'|]. destruct Ek as [(Y & _) | (_ & Y)]; [contradiction | exact Y].
Qed.

Lemma kept_peer : forall static defs n n' p c, reloads P static defs n n' -> configured n p -> p_key p <> c_own P ->
  of_key (p_key p) (static ++ defs) = [c] -> agrees p c ->
  exists p', configured n' p' /\ agrees p' c /\ p_id p' = p_id p /\ (is_established p = true -> p' = p).
Proof.
  intros static defs n n' p c HR [Hin Hc] Nk E0 Ag. destruct (reloads_key _ _ _ _ HR) as (I & I' & _ & R). specialize (R (p_key p)).
  destruct (SD_one _ _ _ _ E0) as [d X]. rewrite X in R. cbn [result] in R. destruct R as (p' & E' & Ag' & _ & Ek & Or).
  pose proof (in_key n p (i_0 _ _ I) Hin) as Fp. apply agrees_dir in Ag'. exists p'.
  split; [split; [apply F_in in E'; apply E' | destruct Ek as [(Y & _) | (_ & Y)]; [contradiction | exact Y]]|]. split; [exact Ag'|].
  destruct Or as [(q & Fq & _ & _ & Ei & _ & Ee) | (_ & _ & _ & Y)].
  - rewrite Fp in Fq. injection Fq as <-. split; [exact Ei|]. intros Hest. rewrite (Ee Nk Hest). rewrite <- Hc. destruct p; reflexivity.
  - exfalso. destruct (Y p Fp) as [Z|Z]; [congruence|]. apply Z. apply agrees_dir. exact Ag.
Qed.

(** a peer with an old number has an old key *)
Lemma same_key : forall static defs n n' p p', reloads P static defs n n' -> In p (n_peers n) -> In p' (n_peers n') -> p_id p' = p_id p -> p_key p' = p_key p.
Proof.
  intros static defs n n' p p' HR Hp Hp' Ei. destruct (reloads_key _ _ _ _ HR) as (I & I' & (t & St) & _).
  assert (It : inv0 P (tick t n)) by (apply (inv_tick P _ _ I)).
  eapply (fix_steps P _ _ (tick t n) n' (p_id p) p p'); [exact St | exact It | |].
  - apply (in_find (tick t n) p (wf_ids _ (i_wf _ _ It))). exact Hp.
  - rewrite <- Ei. apply (in_find n' p' (wf_ids _ (i_wf _ _ (i_0 _ _ I')))). exact Hp'.
Qed.
Lemma id_below : forall n p, inv0 P n -> In p (n_peers n) -> (p_id p < n_next_id n)%N.
Proof.
  intros n p I Hp. apply (in_find n p (wf_ids _ (i_wf _ _ I))) in Hp. apply found_below in Hp; [exact Hp | apply (wf_ids _ (i_wf _ _ I))].
Qed.

Lemma dropped_peer : forall static defs n n' p, reloads P static defs n n' -> In p (n_peers n) -> p_conf p <> CDynamic ->
  (p_key p = c_own P \/ forall c, of_key (p_key p) (static ++ defs) = [c] -> ~ agrees p c) ->
  forall p', In p' (n_peers n') -> p_id p' = p_id p -> p_conf p' = CDisabled /\ is_established p' = false.
Proof.
  intros static defs n n' p HR Hin Hnd Hno p' Hin' Ei. pose proof (same_key _ _ _ _ _ _ HR Hin Hin' Ei) as Ek.
  destruct (reloads_key _ _ _ _ HR) as (I & I' & _ & R). specialize (R (p_key p)).
  pose proof (in_key n p (i_0 _ _ I) Hin) as Fp. pose proof (in_key n' p' (i_0 _ _ I') Hin') as Fp'. rewrite Ek in Fp'. rewrite Fp' in R.
  pose proof (SD_length (p_key p) static defs) as L. pose proof (id_below n p (i_0 _ _ I) Hin) as Lt.
  destruct (of_key (p_key p) (SD static defs)) as [|c [|c2 l]] eqn:EK; cbn [result] in R.
  - exfalso. rewrite Fp in R. destruct (is_dynamic p) eqn:Ed; [apply is_dyn_true in Ed; contradiction | discriminate].
  - destruct R as (q & E' & Ag & _ & Ekk & Or). injection E' as <-. destruct Ekk as [(_ & X) | (Nk & _)]; [exact X|]. exfalso.
    destruct Hno as [Y|Hno]; [contradiction|].
    destruct (of_key (p_key p) (static ++ defs)) as [|c0 [|c1 l]] eqn:E0; try discriminate.
    destruct (SD_one _ _ _ _ E0) as [d X]. rewrite EK in X. injection X as ->.
    destruct Or as [(q & Fq & _ & Agq & _) | (_ & Y & _)]; [|lia].
    rewrite Fp in Fq. injection Fq as <-. apply (Hno c0 eq_refl). exact (proj1 (agrees_dir _ _ _) Agq).
  - destruct R as (q & E' & X & Y & _). injection E' as <-. split; assumption.
Qed.

Lemma dynamic_stays : forall static defs n n' p, reloads P static defs n n' -> dynamic n p -> of_key (p_key p) defs = [] -> In p (n_peers n').
Proof.
  intros static defs n n' p HR [Hin Hd] E0. pose proof HR as (now & orc & dirs & evs & dt & He & _). pose proof (J_reach _ _ _ _ _ _ He) as HJ.
  destruct (reloads_key _ _ _ _ HR) as (I & I' & _ & R). specialize (R (p_key p)). pose proof (in_key n p (i_0 _ _ I) Hin) as Fp.
  rewrite of_key_SD, E0 in R. cbn [map] in R. rewrite app_nil_r in R. destruct (of_key (p_key p) static) as [|c l] eqn:E.
  - cbn [map result] in R. rewrite Fp in R. rewrite (proj2 (is_dyn_true p) Hd) in R. apply F_in in R. apply R.
  - exfalso. assert (X : In c (of_key (p_key p) static)) by (rewrite E; left; reflexivity). apply of_key_in in X. destruct X as [X1 X2].
    apply (in_map (with_dir false)) in X1. apply (j_main _ _ HJ) in X1. destruct X1 as (q & Hq & [Hq1 _] & Eq).
    assert (q = p) by (eapply keys_inj; [exact (wf_key _ (i_wf _ _ (i_0 _ _ I))) | exact Hq | exact Hin | rewrite <- X2; apply (f_equal pc_key) in Eq; exact Eq]).
    subst q. unfold is_dynamic in Hq1. rewrite Hd in Hq1. discriminate.
Qed.
Lemma dynamic_replaced : forall static defs n n' p, reloads P static defs n n' -> dynamic n p -> of_key (p_key p) defs <> [] ->
  forall p', In p' (n_peers n') -> p_id p' <> p_id p.
Proof.
  intros static defs n n' p HR [Hin Hd] E0 p' Hin' Ei. pose proof (same_key _ _ _ _ _ _ HR Hin Hin' Ei) as Ek.
  destruct (reloads_key _ _ _ _ HR) as (I & I' & _ & R). specialize (R (p_key p)). pose proof (in_key n p (i_0 _ _ I) Hin) as Fp.
  pose proof (in_key n' p' (i_0 _ _ I') Hin') as Fp'. rewrite Ek in Fp'. rewrite Fp' in R. pose proof (id_below n p (i_0 _ _ I) Hin) as Lt.
  rewrite of_key_SD in R. destruct (map (with_dir false) (of_key (p_key p) static) ++ map (with_dir true) (of_key (p_key p) defs)) as [|c [|c2 l]] eqn:EK; cbn [result] in R.
  - apply app_eq_nil in EK. destruct EK as [_ X]. destruct (of_key (p_key p) defs); [contradiction | discriminate].
  - destruct R as (q & E' & _ & _ & _ & Or). injection E' as <-. destruct Or as [(q & Fq & X & _) | (_ & X & _)]; [congruence | lia].
  - destruct R as (q & E' & _ & _ & Or). injection E' as <-. destruct Or as [(q & Fq & X & _) | (_ & _ & X & _)]; [congruence | lia].
Qed.

(** what becomes of the MTU *)
Lemma mtu_of : forall static defs n n' p', reloads P static defs n n' -> configured n' p' ->
  exists c, of_key (p_key p') (static ++ defs) = [c] /\
    ((exists p, In p (n_peers n) /\ p_conf p <> CDynamic /\ p_id p' = p_id p /\ agrees p c /\ p_mtu p' = p_mtu p) \/
     ((forall p, In p (n_peers n) -> p_key p = p_key p' -> p_conf p = CDynamic \/ ~ agrees p c) /\ p_mtu p' = pc_mtu c)).
Proof.
  intros static defs n n' p HR Hcf. destruct (configured_to _ _ _ _ _ HR Hcf) as (Nk & c & E0 & _). exists c. split; [exact E0|].
  destruct Hcf as [Hin Hc]. destruct (reloads_key _ _ _ _ HR) as (I & I' & _ & R). specialize (R (p_key p)).
  pose proof (in_key n' p (i_0 _ _ I') Hin) as E. rewrite E in R. destruct (SD_one _ _ _ _ E0) as [d X]. rewrite X in R. cbn [result] in R.
  destruct R as (q & Eq & _ & _ & _ & Or). injection Eq as <-. destruct Or as [(q & Fq & Nd & Ag & Ei & Ecf & _) | (_ & _ & Ecf & Y)].
  - left. exists q. apply F_in in Fq. destruct Fq as [Hq _]. split; [exact Hq|]. split; [exact Nd|]. split; [exact Ei|].
    split; [exact (proj1 (agrees_dir _ _ _) Ag) | apply (f_equal pc_mtu) in Ecf; exact Ecf].
  - right. split; [|apply (f_equal pc_mtu) in Ecf; exact Ecf]. intros q Hq Ekq.
    destruct (Y q) as [Z|Z]; [rewrite <- Ekq; apply (in_key n q (i_0 _ _ I) Hq) | left; exact Z | right; intros Ag; apply Z; apply agrees_dir; exact Ag].
Qed.
End Reload.
