(** What a turn of an unconnected peer does: the handshake task *)
From Verif Require Import Base BufferModel NonceModel MethodModel HandshakeModel NodeModel NodeSpec NodeSteps NodeWf NodeInv NodeFun NodeFun2 NodeSafe NodeSafe2 NodeKeep NodeProofs RetryHoare RetryHoare2 RetryInv RetrySpec RetryTurn.
From Coq Require Import Lia ZifyBool ZifyNat ZifyN Sorted.
Local Open Scope Z_scope.

(** only the position has changed *)
Record path (p p' : peer) : Prop := mk_path {
  ph_addrs : addresses p' = addresses p; ph_hs : p_next_hs p' = p_next_hs p; ph_state : p_state p' = p_state p; ph_sock : p_sock p' = p_sock p;
  ph_host : map r_host (p_remotes p') = map r_host (p_remotes p); ph_conf : p_conf p' = p_conf p; ph_id : p_id p' = p_id p
}.
Lemma path_refl : forall p, path p p.
Proof. intros p. constructor; reflexivity. Qed.
Lemma path_trans : forall p q r, path p q -> path q r -> path p r.
Proof. intros p q r [] []. constructor; congruence. Qed.
Lemma path_remote : forall p i f, (forall r, r_addrs (f r) = r_addrs r) -> (forall r, r_host (f r) = r_host r) -> path p (set_remote i f p).
Proof.
  intros p i f H1 H2. constructor; try reflexivity.
  - apply map_set_remote. exact H1.
  - apply map_set_remote. exact H2.
Qed.
Lemma path_next : forall p x, path p (set_p_next_remote x p).
Proof. intros p x. constructor; reflexivity. Qed.
Lemma nth_map_host : forall (l l' : list remote) i r', map r_host l' = map r_host l -> nth_error l' i = Some r' -> exists r, nth_error l i = Some r /\ r_host r = r_host r'.
Proof.
  intros l l' i r' E H. assert (X : nth_error (map r_host l) i = Some (r_host r')) by (rewrite <- E; apply map_nth_error; exact H).
  destruct (nth_error l i) as [r|] eqn:Er; [|apply nth_error_None in Er; rewrite (proj2 (nth_error_None _ _)) in X; [discriminate | rewrite map_length; exact Er]].
  exists r. split; [reflexivity|]. rewrite (map_nth_error r_host _ _ Er) in X. congruence.
Qed.
Lemma nth_addresses : forall p i r, nth_error (p_remotes p) i = Some r -> nth i (addresses p) [] = r_addrs r.
Proof. intros p i r H. unfold addresses. apply nth_error_nth. apply map_nth_error. exact H. Qed.
Lemma touched_path : forall p p', touched p p' -> addresses p' = addresses p /\ p_next_hs p' = p_next_hs p /\ p_state p' = p_state p /\ p_remotes p' = p_remotes p /\ p_next_remote p' = p_next_remote p /\ p_conf p' = p_conf p /\ p_id p' = p_id p.
Proof. intros p p' (a & b & c & d & ->). repeat split. Qed.

Section Turn.
Variables (P : params) (pid : N).
Definition skip (p : peer) : nat := match p_next_remote p with Some i => if Nat.ltb i (length (p_remotes p)) then i else 0%nat | None => 0%nat end.

Lemma next_done : forall l p n p1 n1 x n', mv pid l p n p1 n1 -> task_handshake_next P pid n1 = Ok (x, n') ->
  exists p2 lr, mv pid (lr ++ l) p n p2 n' /\ path p1 p2 /\ position p2 = Some (skip p1, 0%nat) /\
    (lr = [] \/ (lr = [OResolve pid (skip p1)] /\ exists r, nth_error (p_remotes p1) (skip p1) = Some r /\ r_host r <> None)).
Proof.
  intros l p n p1 n1 x n' M H. unfold task_handshake_next in H. bind H as u m H1.
  eapply mv_wr in H1; [| exact M | intros q; destruct (p_next_remote q) as [i|]; [destruct (Nat.ltb _ _)|]; reflexivity].
  set (q := match p_next_remote p1 with Some i => if Nat.ltb i (length (p_remotes p1)) then p1 else set_p_next_remote (Some 0%nat) p1 | None => set_p_next_remote (Some 0%nat) p1 end) in *.
  assert (Hq : p_next_remote q = Some (skip p1) /\ path p1 q /\ p_remotes q = p_remotes p1).
  { unfold q, skip. destruct (p_next_remote p1) as [i|] eqn:E; [destruct (Nat.ltb _ _)|]; (split; [try exact E; reflexivity|]); (split; [try apply path_refl; apply path_next | reflexivity]). }
  destruct Hq as (Hq1 & Hq2 & Hq3). clearbody q. bind H as q' m1 H2. destruct (mv_rd _ _ _ _ _ _ _ _ H1 H2) as [-> ->]. rewrite Hq1 in H.
  bind H as r m1 H3. destruct (mv_remote _ _ _ _ _ _ _ _ _ H1 H3) as [-> Hr]. bind H as u2 m2 H4. eapply mv_wr in H4; [|exact H1 | intros z; reflexivity].
  set (i := skip p1) in *. set (q3 := set_remote i (set_r_cur 0) q) in *.
  assert (Hn3 : nth_error (p_remotes q3) i = Some (set_r_cur 0 r)) by (unfold q3; rewrite nth_set_remote, Nat.eqb_refl, Hr; reflexivity).
  assert (Hp3 : path p1 q3) by (eapply path_trans; [exact Hq2 | apply path_remote; reflexivity]).
  assert (Hx3 : position q3 = Some (i, 0%nat)) by (unfold position; change (p_next_remote q3) with (p_next_remote q); rewrite Hq1, Hn3; reflexivity).
  clearbody q3. destruct (r_host r) as [hn|] eqn:Eh.
  - unfold resolve_peer in H. bind H as q4 m3 H5. destruct (mv_rd _ _ _ _ _ _ _ _ H4 H5) as [-> ->]. destruct (is_dynamic q3); [discriminate|].
    bind H as r' m3 H6. destruct (mv_remote _ _ _ _ _ _ _ _ _ H4 H6) as [-> Hr']. bind H as now m4 H7. apply gets_ok in H7. destruct H7 as [-> ->].
    destruct (negb _).
    + apply ret_ok in H. destruct H as [_ ->]. exists q3, []. split; [exact H4|]. split; [exact Hp3|]. split; [exact Hx3 | left; reflexivity].
    + bind H as u3 m4 H8. eapply mv_wr in H8; [|exact H4 | intros z; reflexivity]. set (q5 := set_remote i (set_r_to (n_now m2 + MIN_RESOLVE_INTERVAL)) q3) in *.
      assert (Hp5 : path p1 q5) by (eapply path_trans; [exact Hp3 | apply path_remote; reflexivity]).
      assert (Hx5 : position q5 = Some (i, 0%nat)).
      { unfold position in *. change (p_next_remote q5) with (p_next_remote q3). destruct (p_next_remote q3) as [j|]; [|discriminate]. unfold q5. rewrite nth_set_remote.
        destruct (Nat.eqb j i) eqn:Ej; [|exact Hx3]. apply Nat.eqb_eq in Ej. rewrite <- Ej in *. destruct (nth_error (p_remotes q3) j); [exact Hx3 | discriminate]. }
      bind H as ok m5 H9. eapply mv_flip in H9; [|exact H8]. unfold when in H. destruct ok.
      * bind H as u4 m6 H10. eapply mv_emit in H10; [|exact H9]. apply modn_ok in H. exists q5, [OResolve pid i]. split; [|split; [exact Hp5 | split; [exact Hx5|]]].
        -- subst n'. eapply mv_frame; [exact H10 | reflexivity | reflexivity | reflexivity].
        -- right. split; [reflexivity|]. exists r. rewrite <- Hq3. split; [exact Hr | congruence].
      * apply ret_ok in H. destruct H as [_ ->]. exists q5, []. split; [exact H9|]. split; [exact Hp5|]. split; [exact Hx5 | left; reflexivity].
  - apply ret_ok in H. destruct H as [_ ->]. exists q3, []. split; [exact H4|]. split; [exact Hp3|]. split; [exact Hx3 | left; reflexivity].
Qed.

(** ** Limits *)
Lemma connect_full : forall n p, is_established p = false -> (may_connect P (n_peers n) p = false <-> full P n p).
Proof.
  intros n p He. unfold may_connect, full. rewrite He. split.
  - intros H. destruct (forallb _ _) eqn:E; [discriminate|]. clear H. induction (p_group p) as [|g gs IH]; cbn [forallb] in E; [discriminate|].
    apply Bool.andb_false_iff in E. destruct E as [E | E].
    + destruct (c_limit P g) as [m|] eqn:El; [|discriminate]. exists g, m. split; [left; reflexivity|]. split; [exact El|]. apply Nat.ltb_ge in E. exact E.
    + destruct (IH E) as (g' & m & A & B). exists g', m. split; [right; exact A | exact B].
  - intros (g & m & A & B & C). apply Bool.not_true_is_false. intros H. rewrite forallb_forall in H. specialize (H g A). rewrite B in H. apply Nat.ltb_lt in H.
    unfold count_group, in_group in H. lia.
Qed.
Lemma connect_own : forall p n p1 n1, own pid p n p1 n1 -> ids_ok n -> p_state p1 = p_state p -> p_group p1 = p_group p -> forall q q1, p_state q1 = p_state q -> p_group q1 = p_group q ->
  may_connect P (n_peers n1) q1 = may_connect P (n_peers n) q.
Proof.
  intros p n p1 n1 O I Es Eg q q1 Eqs Eqg. unfold may_connect. replace (is_established q1) with (is_established q) by (unfold is_established; rewrite Eqs; reflexivity). rewrite Eqg.
  destruct (is_established q); [reflexivity|].
  assert (X : forall g, count_group (n_peers n1) g = count_group (n_peers n) g).
  { intros g. unfold count_group. rewrite (o_peers _ _ _ _ _ O). pose proof (o_at _ _ _ _ _ O) as Ha. apply find_id_in in Ha. destruct Ha as [Hp Hpi].
    assert (Hu : forall x, In x (n_peers n) -> p_id x = pid -> x = p) by (intros x Hx Hxi; apply (ids_inj n x p I Hx Hp); congruence). clear O Hp. unfold upd_id.
    revert Hu. generalize (n_peers n) as l. induction l as [|x l IH]; intros Hu; [reflexivity|]. cbn [map filter].
    assert (Ex : (is_established (if (p_id x =? pid)%N then p1 else x) && in_group (if (p_id x =? pid)%N then p1 else x) g)%bool = (is_established x && in_group x g)%bool).
    { destruct (N.eqb_spec (p_id x) pid) as [E|E]; [|reflexivity]. rewrite (Hu x (or_introl eq_refl) E). unfold is_established, in_group. rewrite Es, Eg. reflexivity. }
    rewrite Ex. specialize (IH (fun y Hy => Hu y (or_intror Hy))). destruct (is_established x && in_group x g)%bool; cbn [length]; rewrite IH; reflexivity. }
  clear Eqg. induction (p_group q) as [|g gs IH]; [reflexivity|]. cbn [forallb]. rewrite IH, X. reflexivity.
Qed.

Lemma ids_upd : forall n i f, keeps_id f -> ids_ok n -> ids_ok (set_n_peers (upd_id (n_peers n) i f) n).
Proof.
  intros n i f K H. unfold ids_ok, ids in *. cbn [n_peers set_n_peers n_next_id]. unfold upd_id. rewrite map_map.
  replace (map _ (n_peers n)) with (map p_id (n_peers n)); [exact H|]. apply map_ext. intros q. destruct (N.eqb _ _); [symmetry; apply K | reflexivity].
Qed.

(** ** The task *)
Lemma following_skip : forall p1 i r, nth_error (p_remotes p1) i = Some r -> p_next_remote p1 = Some (S i) ->
  Nat.ltb (S (r_cur r)) (length (r_addrs r)) = false -> (skip p1, 0%nat) = following (addresses p1) (i, r_cur r).
Proof.
  intros p1 i r Hr Hn Hl. unfold skip, following. rewrite Hn, (nth_addresses _ _ _ Hr), Hl. unfold addresses. rewrite map_length. destruct (Nat.ltb (S i) _); reflexivity.
Qed.

Lemma task_done : forall p n p1 n1 x n', own pid p n p1 n1 -> ids_ok n -> ids_ok n1 -> p_id p = pid -> is_established p = false ->
  path p p1 -> p_remotes p1 = p_remotes p -> p_next_remote p1 = p_next_remote p -> p_group p1 = p_group p -> p_lh_addr p1 = p_lh_addr p -> p_lh_to p1 = p_lh_to p ->
  (p_lh_addr p = None \/ p_lh_to p <= n_now n) -> task_handshake P pid n1 = Ok (x, n') ->
  exists p' l, mv pid l p n p' n' /\ (exists h, p_next_hs p' = Some h /\ n_now n + 17500 <= h < n_now n + 22500) /\ addresses p' = addresses p /\ map r_host (p_remotes p') = map r_host (p_remotes p) /\ p_conf p' = p_conf p /\
    ((full P n p /\ p_next_remote p' = None /\ l = [] /\ p_state p' = p_state p) \/
     (~ full P n p /\ p_next_remote p = None /\ position p' = Some (0, 0)%nat /\ lookup p 0 l /\ p_state p' = p_state p) \/
     (~ full P n p /\ p_state p' = Handshaking /\ exists y l1 l2, position p = Some y /\ position p' = Some (following (addresses p) y) /\ l = l2 ++ l1 /\ attempt n p p' y l1 /\
        (if Nat.ltb (S (snd y)) (length (nth (fst y) (addresses p) [])) then l2 = [] else lookup p (fst (following (addresses p) y)) l2))).
Proof.
  intros p n p1 n1 x n' O I I1 Hpid He Hpath Hrem Hnr Hgr Hla Hlt Hl H. unfold task_handshake in H.
  bind H as d m H1. unfold handshake_default_rand, rand in H1. bind H1 as z m0 H0. apply ret_ok in H1. destruct H1 as [Hd ->]. apply pop_orc in H0. destruct H0 as [o ->].
  assert (Hdb : 17500 <= d < 22500). { pose proof (Z.mod_pos_bound (Z.of_N z) (22500 - 17500) ltac:(lia)). lia. } clear Hd.
  apply (own_orc _ _ _ _ _ o) in O. assert (I2 : ids_ok (set_n_orc o n1)) by exact I1. clear I1.
  bind H as u m H1. unfold set_next_handshake in H1. bind H1 as now m0 H2. apply gets_ok in H2. destruct H2 as [-> ->]. pose proof H1 as Hw. eapply own_wr in H1; [|exact O | intros q; reflexivity].
  assert (I3 : ids_ok m). { apply wr_ok in Hw. destruct Hw as (q & _ & ->). apply ids_upd; [intros w; reflexivity | exact I2]. } clear Hw I2.
  rewrite (o_now _ _ _ _ _ O) in H1. set (p2 := set_p_next_hs (Some (n_now n + d)) p1) in *.
  bind H as q m1 H2. destruct (own_rd _ _ _ _ _ _ _ H1 H2) as [-> ->]. bind H as l m1 H3. apply gets_ok in H3. destruct H3 as [-> ->].
  assert (Es2 : p_state p2 = p_state p) by exact (ph_state _ _ Hpath).
  rewrite (connect_own p n p2 m H1 I Es2 Hgr p p2 Es2 Hgr) in H. pose proof (own_mv _ _ _ _ _ H1) as M.
  assert (He2 : is_established p2 = false) by (unfold is_established in *; rewrite Es2; exact He).
  destruct (may_connect P (n_peers n) p) eqn:Em; cbn [negb] in H.
  2:{ apply (connect_full n p He) in Em. eapply mv_wr in H; [|exact M | intros q; reflexivity]. eexists. exists []. split; [exact H|]. split; [exists (n_now n + d); split; [reflexivity | lia]|].
      split; [exact (ph_addrs _ _ Hpath)|]. split; [exact (ph_host _ _ Hpath)|]. split; [exact (ph_conf _ _ Hpath)|]. left. repeat split; try assumption; reflexivity. }
  assert (Hnf : ~ full P n p) by (intros X; apply (connect_full n p He) in X; congruence).
  rewrite He2 in H. change (p_next_remote p2) with (p_next_remote p1) in H. rewrite Hnr in H. destruct (p_next_remote p) as [i|] eqn:En.
  - bind H as b m1 H4.
    destruct (sent P pid p n p2 m i (n_now n + d) b m1 H1 I3 He2 eq_refl) as (r & p3 & l1 & Hr & Ht & M3 & Hl1); [|exact Hpid | exact H4|].
    { change (p_lh_addr p2) with (p_lh_addr p1). change (p_lh_to p2) with (p_lh_to p1). rewrite Hla, Hlt. exact Hl. }
    destruct (touched_path _ _ Ht) as (T1 & T2 & T3 & T4 & T5 & T6 & T7). change (p_remotes p2) with (p_remotes p1) in Hr. rewrite Hrem in Hr.
    bind H as q m2 H5. destruct (mv_rd _ _ _ _ _ _ _ _ M3 H5) as [-> ->]. replace (is_established p3) with false in H by (unfold is_established in *; rewrite T3; symmetry; exact He2).
    bind H as u2 m2 H6. eapply mv_wr in H6; [|exact M3 | intros q; reflexivity]. bind H as r' m3 H7. destruct (mv_remote _ _ _ _ _ _ _ _ _ H6 H7) as [-> Hr'].
    change (p_remotes (set_p_state Handshaking p3)) with (p_remotes p3) in Hr'. rewrite T4 in Hr'. change (p_remotes p2) with (p_remotes p1) in Hr'. rewrite Hrem, Hr in Hr'. injection Hr' as <-.
    bind H as u3 m3 H8. eapply mv_wr in H8; [|exact H6 | intros q; reflexivity]. set (p4 := set_remote i (set_r_cur (S (r_cur r))) (set_p_state Handshaking p3)) in *.
    assert (A4 : addresses p4 = addresses p). { unfold p4, addresses. rewrite map_set_remote by reflexivity. change (map r_addrs (p_remotes p3) = map r_addrs (p_remotes p)). rewrite T4. change (p_remotes p2) with (p_remotes p1). rewrite Hrem. reflexivity. }
    assert (B4 : map r_host (p_remotes p4) = map r_host (p_remotes p)). { unfold p4. rewrite map_set_remote by reflexivity. change (map r_host (p_remotes p3) = map r_host (p_remotes p)). rewrite T4. change (p_remotes p2) with (p_remotes p1). rewrite Hrem. reflexivity. }
    assert (C4 : p_conf p4 = p_conf p) by (change (p_conf p4) with (p_conf p3); rewrite T6; exact (ph_conf _ _ Hpath)).
    assert (D4 : p_next_hs p4 = Some (n_now n + d)) by (change (p_next_hs p4) with (p_next_hs p3); rewrite T2; reflexivity).
    assert (E4 : p_sock p4 = p_sock p3) by reflexivity.
    assert (F4 : nth_error (p_remotes p4) i = Some (set_r_cur (S (r_cur r)) r)).
    { unfold p4. rewrite nth_set_remote, Nat.eqb_refl. change (p_remotes (set_p_state Handshaking p3)) with (p_remotes p3). rewrite T4. change (p_remotes p2) with (p_remotes p1). rewrite Hrem, Hr. reflexivity. }
    assert (G4 : p_next_remote p4 = Some i) by (change (p_next_remote p4) with (p_next_remote p3); rewrite T5; change (p_next_remote p2) with (p_next_remote p1); exact Hnr).
    assert (K4 : p_state p4 = Handshaking) by reflexivity.
    assert (Hpos : position p = Some (i, r_cur r)) by (unfold position; rewrite En, Hr; reflexivity).
    assert (Hatt : forall p', p_sock p' = p_sock p3 -> attempt n p p' (i, r_cur r) l1).
    { intros p' Ep. unfold attempt. cbn [fst snd]. rewrite (nth_addresses _ _ _ Hr), Hpid, Ep. exact Hl1. }
    clearbody p4. destruct (Nat.ltb (S (r_cur r)) (length (r_addrs r))) eqn:El.
    + apply ret_ok in H. destruct H as [_ ->]. exists p4, l1. split; [exact H8|]. split; [exists (n_now n + d); split; [exact D4 | lia]|]. split; [exact A4|]. split; [exact B4|]. split; [exact C4|].
      right. right. split; [exact Hnf|]. split; [exact K4|]. exists (i, r_cur r), l1, []. split; [exact Hpos|]. split; [|split; [reflexivity|]; split; [apply Hatt; exact E4|]].
      * unfold position. rewrite G4, F4. unfold following. rewrite (nth_addresses _ _ _ Hr), El. reflexivity.
      * cbn [fst snd]. rewrite (nth_addresses _ _ _ Hr), El. reflexivity.
    + bind H as u4 m4 H9. eapply mv_wr in H9; [|exact H8 | intros q; reflexivity]. rewrite G4 in H9. set (p5 := set_p_next_remote (Some (S i)) p4) in *.
      destruct (next_done _ _ _ _ _ _ _ H9 H) as (p6 & lr & M6 & Hp6 & Hx6 & Hlr).
      assert (Ef : (skip p5, 0%nat) = following (addresses p) (i, r_cur r)).
      { pose proof (following_skip p5 i (set_r_cur (S (r_cur r)) r)) as X. unfold skip, following. change (p_next_remote p5) with (Some (S i)). cbv iota beta. rewrite (nth_addresses _ _ _ Hr), El.
        change (p_remotes p5) with (p_remotes p4). replace (length (addresses p)) with (length (p_remotes p4)) by (rewrite <- A4; unfold addresses; rewrite map_length; reflexivity).
        destruct (Nat.ltb (S i) _); reflexivity. }
      exists p6, (lr ++ l1). split; [exact M6|]. split; [exists (n_now n + d); split; [rewrite (ph_hs _ _ Hp6); exact D4 | lia]|].
      split; [rewrite (ph_addrs _ _ Hp6); exact A4|]. split; [rewrite (ph_host _ _ Hp6); exact B4|]. split; [rewrite (ph_conf _ _ Hp6); exact C4|].
      right. right. split; [exact Hnf|]. split; [rewrite (ph_state _ _ Hp6); exact K4|]. exists (i, r_cur r), l1, lr. split; [exact Hpos|]. split; [rewrite Hx6, Ef; reflexivity|]. split; [reflexivity|].
      split; [apply Hatt; rewrite (ph_sock _ _ Hp6); exact E4|]. cbn [fst snd]. rewrite (nth_addresses _ _ _ Hr), El, <- Ef. cbn [fst]. unfold lookup. rewrite Hpid.
      destruct Hlr as [-> | (-> & r5 & Hr5 & Hh5)]; [left; reflexivity | right]. split; [reflexivity|]. destruct (nth_map_host (p_remotes p) (p_remotes p5) _ _ B4 Hr5) as (r6 & Hr6 & Hh6). exists r6. split; [exact Hr6 | congruence].
  - destruct (next_done _ _ _ _ _ _ _ M H) as (p6 & lr & M6 & Hp6 & Hx6 & Hlr). assert (Ek : skip p2 = 0%nat) by (unfold skip; change (p_next_remote p2) with (p_next_remote p1); rewrite Hnr; reflexivity). rewrite Ek in *.
    rewrite app_nil_r in M6. exists p6, lr. split; [exact M6|]. split; [exists (n_now n + d); split; [rewrite (ph_hs _ _ Hp6); reflexivity | lia]|].
    split; [rewrite (ph_addrs _ _ Hp6); exact (ph_addrs _ _ Hpath)|]. split; [rewrite (ph_host _ _ Hp6); exact (ph_host _ _ Hpath)|]. split; [rewrite (ph_conf _ _ Hp6); exact (ph_conf _ _ Hpath)|].
    right. left. split; [exact Hnf|]. split; [reflexivity|]. split; [exact Hx6|]. split; [|rewrite (ph_state _ _ Hp6); exact (ph_state _ _ Hpath)].
    unfold lookup. rewrite Hpid. destruct Hlr as [-> | (-> & r & Hr & Hh)]; [left; reflexivity | right]. split; [reflexivity|]. exists r. change (p_remotes p2) with (p_remotes p1) in Hr. rewrite Hrem in Hr. split; assumption.
Qed.
End Turn.

(** The task of an unconnected peer, up to the point where the handshake is considered *)
Definition rest (P : params) (pid : N) (t : Z) (q : peer) : M unit := when (otimed_out t (p_next_hs q)) (task_handshake P pid) ;; schedule_peer_task pid.
Lemma task_enter : forall P n dt n' p, reachable P n -> In p (n_peers n) -> wanted p -> handles P n dt (EvTask (p_id p)) n' ->
  n_now n' = n_now n + Z.of_N dt /\ actp p /\ good (n_now n) p /\
  ((exists h tk, p_next_hs p = Some h /\ p_task p = Some tk /\ tk <= h /\ n_now n' < tk /\ n_peers n' = n_peers n) \/
   exists q m m2, n_peers m = n_peers n /\ n_now m = n_now n' /\ n_out m = n_out n /\ ids_ok m /\ own (p_id p) p m q m2 /\ ids_ok m2 /\ path p q /\ p_remotes q = p_remotes p /\ p_next_remote q = p_next_remote p /\
     p_group q = p_group p /\ p_lh_addr q = p_lh_addr p /\ p_lh_to q = p_lh_to p /\ rest P (p_id p) (n_now m) q m2 = Ok (tt, n')).
Proof.
  intros P n dt n' p R Hp (We & Wn & Wr) H. pose proof (reachable_inv _ _ R) as Inv. pose proof (wf_ids _ (i_wf _ _ (i_0 _ _ Inv))) as I.
  pose proof (in_find n p I Hp) as Hf. assert (Ha : actp p) by (apply (i_alive _ _ Inv (p_id p) p Hf); exact We).
  destruct (reachable_goods _ _ R) as [_ G]. specialize (G p Hp). pose proof (i_pinv _ _ (i_0 _ _ Inv) p Hp) as [_ _ _ _ Pd].
  assert (Hdyn : is_dynamic p = false) by (destruct (is_dynamic p) eqn:E; [apply is_dyn_true in E; contradiction (Wr (Pd E)) | reflexivity]).
  pose proof (g_reset _ _ _ _ G Hdyn Ha Wn) as Hreset. destruct (g_retry _ _ _ _ G Ha Wn Wr) as (h & tk & Hh & E2 & Htk & _).
  assert (Hnow : n_now n' = n_now n + Z.of_N dt) by exact (now_steps _ _ _ _ _ (proj1 (proj1 (proj2 (handles_steps _ _ _ _ _ H Inv))))).
  split; [exact Hnow|]. split; [exact Ha|]. split; [exact G|].
  unfold handles, step in H. bind H as u m Hm. apply modn_ok in Hm. cbn [fst snd handle] in *.
  assert (Em1 : n_peers m = n_peers n) by (subst m; reflexivity). assert (Em2 : n_now m = n_now n') by (subst m; cbn [n_now set_n_now]; lia). assert (Em3 : n_out m = n_out n) by (subst m; reflexivity).
  assert (Im : ids_ok m) by (subst m; exact I). clear Hm.
  bind H as l0 m0 H0. apply gets_ok in H0. destruct H0 as [-> ->]. bind H as t m0 H0. apply gets_ok in H0. destruct H0 as [-> ->]. rewrite Em1, Hf, E2 in H.
  cbn [otimed_out] in H. unfold timed_out in H. destruct (Z.leb_spec tk (n_now m)) as [Hle|Hgt]; unfold when in H.
  2:{ left. apply ret_ok in H. destruct H as [_ ->]. exists h, tk. split; [exact Hh|]. split; [exact E2|]. split; [exact Htk|]. split; [exact Hgt | exact Em1]. }
  right. unfold handle_task in H. assert (O0 : own (p_id p) p m p m) by (apply own_refl; [exact Im | rewrite Em1; exact Hf]).
  bind H as u1 m1 H1. pose proof H1 as Hw. eapply own_wr in H1; [|exact O0 | intros q; reflexivity]. assert (I1 : ids_ok m1) by (apply wr_ok in Hw; destruct Hw as (q & _ & ->); apply ids_upd; [intros w; reflexivity | exact Im]). clear Hw.
  bind H as q m2 H2. destruct (own_rd _ _ _ _ _ _ _ H1 H2) as [-> ->]. bind H as now m2 H3. apply gets_ok in H3. destruct H3 as [-> ->]. rewrite (o_now _ _ _ _ _ H1) in H.
  change (p_reset_to (set_p_task None p)) with (p_reset_to p) in H. rewrite Hreset in H. cbn [otimed_out] in H.
  bind H as u2 m2 H4.
  assert (X : exists q, own (p_id p) p m q m2 /\ ids_ok m2 /\ path p q /\ p_remotes q = p_remotes p /\ p_next_remote q = p_next_remote p /\ p_group q = p_group p /\ p_lh_addr q = p_lh_addr p /\ p_lh_to q = p_lh_to p).
  { unfold when in H4. destruct (otimed_out _ _).
    - bind H4 as u3 m3 H5. unfold protocol_send in H5. bind H5 as q m4 H6. destruct (own_rd _ _ _ _ _ _ _ H1 H6) as [-> ->].
      change (is_established (set_p_task None p)) with (is_established p) in H5. rewrite Wn in H5. cbn [negb] in H5. apply ret_ok in H5. destruct H5 as [_ ->].
      unfold clear_keepalive in H4. bind H4 as t m4 H7. apply gets_ok in H7. destruct H7 as [-> ->]. pose proof H4 as Hw. eapply own_wr in H4; [|exact H1 | intros q; reflexivity].
      eexists. split; [exact H4|]. split; [apply wr_ok in Hw; destruct Hw as (q & _ & ->); apply ids_upd; [intros w; reflexivity | exact I1]|]. split; [constructor; reflexivity|]. repeat split.
    - apply ret_ok in H4. destruct H4 as [_ ->]. exists (set_p_task None p). split; [exact H1|]. split; [exact I1|]. split; [constructor; reflexivity|]. repeat split. }
  clear H4. destruct X as (q & O & I2 & Hpath & X1 & X2 & X3 & X4 & X5). bind H as q' m3 H5. destruct (own_rd _ _ _ _ _ _ _ O H5) as [-> ->].
  exists q, m, m2. split; [exact Em1|]. split; [exact Em2|]. split; [exact Em3|]. split; [exact Im|]. split; [exact O|]. split; [exact I2|]. split; [exact Hpath|]. repeat (split; [assumption|]). exact H.
Qed.

Lemma turn_done : forall P n dt n' p, reachable P n -> In p (n_peers n) -> wanted p -> turn P n dt n' p ->
  exists p' l, find_id (n_peers n') (p_id p) = Some p' /\ n_out n' = map (fun o => (n_now n', o)) l ++ n_out n /\ soon n' p' /\ addresses p' = addresses p /\ p_conf p' = p_conf p /\
    ((full P n p /\ p_next_remote p' = None /\ l = [] /\ p_state p' = p_state p) \/
     (~ full P n p /\ p_next_remote p = None /\ position p' = Some (0, 0)%nat /\ lookup p 0 l /\ p_state p' = p_state p) \/
     (~ full P n p /\ p_state p' = Handshaking /\ exists y l1 l2, position p = Some y /\ position p' = Some (following (addresses p) y) /\ l = l2 ++ l1 /\ attempt n p p' y l1 /\
        (if Nat.ltb (S (snd y)) (length (nth (fst y) (addresses p) [])) then l2 = [] else lookup p (fst (following (addresses p) y)) l2))).
Proof.
  intros P n dt n' p R Hp W (H & h & Hh & Hd). destruct (task_enter _ _ _ _ _ R Hp W H) as (Hnow & Ha & G & X). destruct W as (We & Wn & Wr).
  destruct X as [(h' & tk & X1 & X2 & X3 & X4 & _) | (q & m & m2 & Em1 & Em2 & Em3 & Im & O & I2 & Hpath & X1 & X2 & X3 & X4 & X5 & H')]; [rewrite Hh in X1; injection X1 as <-; lia|].
  clear H. rename H' into H. unfold rest in H. bind H as u3 m3 H6.
  rewrite (ph_hs _ _ Hpath), Hh in H6. cbn [otimed_out] in H6. unfold timed_out in H6. rewrite (proj2 (Z.leb_le h (n_now m))) in H6 by lia. cbn [when] in H6. unfold when in H6.
  destruct (task_done P (p_id p) p m q m2 u3 m3 O Im I2 eq_refl Wn Hpath X1 X2 X3 X4 X5) as (p' & l & M & (h2 & S1 & S2) & A & B & C & D); [|exact H6|].
  { destruct (g_pause _ _ _ _ G Ha Wn) as [E | (_ & h2 & E & Hle)]; [left; exact E|]. right. rewrite Hh in E. injection E as <-. lia. }
  unfold schedule_peer_task in H. eapply mv_wr in H; [|exact M | apply sched_keeps]. destruct (sched_is p') as [tk' Etk].
  exists (sched p'), l. split; [exact (v_at' _ _ _ _ _ _ H)|]. split; [rewrite (v_out _ _ _ _ _ _ H), Em2, Em3; reflexivity|]. rewrite Etk.
  split; [exists h2; split; [exact S1 | rewrite <- Em2; exact S2]|]. split; [exact A|]. split; [exact C|].
  assert (Hfull : full P m p <-> full P n p) by (unfold full; rewrite Em1; reflexivity).
  destruct D as [(D1 & D2) | [(D1 & D2) | (D1 & D2 & y & l1 & l2 & D3 & D4 & D5 & D6 & D7)]].
  - left. split; [apply Hfull; exact D1 | exact D2].
  - right. left. split; [intros Y; apply D1; apply Hfull; exact Y | exact D2].
  - right. right. split; [intros Y; apply D1; apply Hfull; exact Y|]. split; [exact D2|]. exists y, l1, l2. split; [exact D3|]. split; [exact D4|]. split; [exact D5|]. split; [|exact D7].
    unfold attempt, taken in *. rewrite Em1 in D6. exact D6.
Qed.
