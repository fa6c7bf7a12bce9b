(** Proofs about L2TP offloading: all executions *)
From Coq Require Import List NArith Bool Lia ZifyBool ZifyN ZifyNat.
From Verif Require Import L2tpModel L2tpSpec L2tpProofs L2tpProofs2 L2tpProofs3 L2tpProofs4 L2tpProofs5.
Import ListNotations.
Local Open Scope N_scope.

(** As [runs], but the parent may be gone if sockets may share an address *)
Definition runsx {A} (c : config) (m : M A) (s : st) (Q : A -> st -> Prop) : Prop :=
  match m s with Done a s' => Q a s' | Ended | Spin => True | Stale => c_exclusive c = false | Bug | Hang | Wild => False end.
Lemma runsx_runs : forall A c (m : M A) s Q, runs m s Q -> runsx c m s Q.
Proof. intros A c m s Q. unfold runs, runsx. destruct (m s); tauto. Qed.
Lemma runsx_then : forall A B c (m : M A) (f : A -> M B) s P Q, runsx c m s P -> (forall a s', P a s' -> runsx c (f a) s' Q) -> runsx c (bind m f) s Q.
Proof. intros A B c m f s P Q H K. unfold runsx in H. unfold runsx at 1. unfold bind. destruct (m s) as [a s'| | | | | |]; try exact H. exact (K a s' H). Qed.

(** A packet arrives *)
Lemma on_packet_good : forall c b id local remote n off ok s, good c b None s ->
  runsx c (on_packet c id local remote n off ok) s (fun _ s' => good c b None s').
Proof.
  intros c b id local remote n off ok s G. unfold on_packet.
  change (runsx c (bind get ?f) s ?Q) with (runsx c (f s) s Q). cbn beta.
  destruct (s_heap s id) as [so|] eqn:Hso; [|exact G].
  destruct (negb (accepts so local) || (remote =? 0)) eqn:Ea; [exact G|]. apply orb_false_iff in Ea. destruct Ea as (Ea & Er). apply negb_false_iff in Ea. apply N.eqb_neq in Er.
  assert (Ns : c_exclusive c = true -> forall q, so_kind so = Dynamic q -> no_static s local).
  { intros X q Kq i t Ht Kt. destruct (accepts t local) eqn:At; [|reflexivity]. exfalso.
    unfold accepts in Ea, At. apply andb_prop in Ea, At. destruct Ea as (P1 & I1). destruct At as (P2 & I2).
    pose proof (g_excl _ _ _ _ G X id so q i t Hso Kq Ht Kt ltac:(lia)) as O. unfold overlap in O. destruct (so_ip t) as [x|], (so_ip so) as [y|]; try discriminate. lia. }
  set (id' := match so_kind so with Offload par => par | _ => id end).
  assert (Body : forall so', s_heap s id' = Some so' ->
     (so_kind so' = Static /\ accepts so' local = true \/ exists q, so_kind so' = Dynamic q /\ (c_exclusive c = true -> no_static s local)) ->
     runsx c (if match so_kind so' with Dynamic q => negb (q =? n) | _ => false end then ret tt
            else
              bind (claim_address n (Some id') (Some local) remote) (fun _ =>
              if negb ok then reset_peer c n
              else bind (set_established c n off) (fun r => if r then ret tt else reset_peer c n))) s (fun _ s' => good c b None s')).
  { intros so' Hs' K. destruct (match so_kind so' with Dynamic q => negb (q =? n) | _ => false end) eqn:Eg; [exact G|].
    apply runsx_runs. eapply runs_then; [apply (claim_good c b n id' so' local remote s G Hs' Er)|].
    - destruct K as [K|(q & K & K2)]; [left; exact K | right]. rewrite K in Eg. apply negb_false_iff, N.eqb_eq in Eg. subst q. auto.
    - cbn beta. intros _ s1 (G1 & R1). destruct ok; cbn [negb].
      + eapply runs_then; [eapply set_established_good; eassumption|]. cbn beta. intros [|] s2 G2; [apply runs_ret; exact G2|].
        eapply runs_imp; [apply reset_peer_good; exact G2|]. cbn beta. tauto.
      + eapply runs_imp; [apply reset_peer_good; exact G1|]. cbn beta. tauto. }
  destruct (s_heap s id') as [so'|] eqn:Hs'.
  - specialize (Body so' eq_refl). apply Body. unfold id' in Hs'. destruct (so_kind so) as [|q|par] eqn:Kd.
    + rewrite Hso in Hs'. injection Hs' as <-. left. auto.
    + rewrite Hso in Hs'. injection Hs' as <-. right. exists q. split; [exact Kd|]. intros X. eapply Ns; [exact X | reflexivity].
    + destruct (g_offs _ _ _ _ G id so par Hso Kd) as (m & e & L & E). subst id. destruct (g_live _ _ _ _ G m e L) as (so2 & ip & par2 & A1 & A2 & A3).
      assert (so2 = so) by congruence. subst so2. assert (par2 = par) by congruence. subst par2.
      assert (Loc : local = (ip, so_port so)).
      { unfold accepts in Ea. rewrite A3 in Ea. destruct local as [x y]. cbn in Ea. apply andb_prop in Ea. destruct Ea. f_equal; lia. }
      destruct (g_acc _ _ _ _ G _ so par Hso Kd) as (_ & Acc). destruct (Acc so' Hs') as [(B1 & B2)|(q & B1)].
      * left. split; [exact B1|]. rewrite Loc. apply B2; exact A3.
      * right. exists q. split; [exact B1|]. intros X.
        destruct (g_par _ _ _ _ G X m e so par ip ltac:(discriminate) L Hso Kd A3) as [(so3 & C1 & C2)|(C1 & _)]; [congruence|]. rewrite Loc. exact C1.
  - unfold runsx. cbn. unfold id' in Hs'. destruct (so_kind so) as [|q|par] eqn:Kd; [congruence | congruence |].
    destruct (c_exclusive c) eqn:X; [exfalso | reflexivity].
    destruct (g_offs _ _ _ _ G id so par Hso Kd) as (m & e & L & E). subst id. destruct (g_live _ _ _ _ G m e L) as (so2 & ip & par2 & A1 & A2 & A3).
    assert (so2 = so) by congruence. subst so2.
    destruct (g_par _ _ _ _ G X m e so par ip ltac:(discriminate) L Hso Kd A3) as [(so3 & C1 & C2)|(_ & _ & so3 & C1 & C2)]; congruence.
Qed.

(** A new socket for a peer without one *)
Lemma open_good : forall c b n ip port s, good c b (Some n) s -> p_sock (s_peers s n) = None -> (c_exclusive c = true -> conflict ip port (s_fds s) = false) ->
  good c b (Some n) (set_peers (upd (s_peers s) n (with_sock (Some (s_next s)) (s_peers s n)))
    (set_heap (upd (s_heap s) (s_next s) (Some (mk_sock (s_next s) ip port (Dynamic n)))) (set_fds (mk_kfd (s_next s) ip port 0 :: s_fds s) (set_next (s_next s + 1) s)))).
Proof.
  intros c b n ip port s H Hn Hx.
  destruct H as [g_fresh0 g_heap0 g_fds0 g_nodup0 g_static0 g_dyn0 g_offs0 g_sock0 g_live0 g_one0 g_acc0 g_excl0 g_est0 g_par0 g_tun0 g_work0].
  set (id := s_next s). set (o := mk_sock id ip port (Dynamic n)). set (q := with_sock (Some id) (s_peers s n)).
  pose proof g_fresh0 as (F1 & F2 & F3).
  assert (New : forall i so', s_heap s i = Some so' -> i <> id) by (intros i so' E ->; specialize (F2 _ _ E); lia).
  assert (Eo : forall m, p_off (upd (s_peers s) n q m) = p_off (s_peers s m)).
  { intros m. unfold upd. destruct (N.eqb_spec m n) as [->|]; reflexivity. }
  assert (Ex : forall m, Some n <> Some m -> upd (s_peers s) n q m = s_peers s m).
  { intros m D. apply upd_other. congruence. }
  assert (Hh : forall i so', upd (s_heap s) id (Some o) i = Some so' -> (i = id /\ so' = o) \/ (i <> id /\ s_heap s i = Some so')).
  { intros i so' E. unfold upd in E. destruct (N.eqb_spec i id); [injection E as <-; auto | auto]. }
  assert (Hb : forall i so', s_heap s i = Some so' -> upd (s_heap s) id (Some o) i = Some so').
  { intros i so' E. rewrite upd_other; [exact E | eauto]. }
  assert (Ho : upd (s_heap s) id (Some o) id = Some o) by apply upd_same.
  constructor; unfold fresh_ok, live, static_at, dynamic_at, no_static, works, connected, calm in *; cbn [s_fds s_next s_heap s_peers s_tuns s_queue s_skerr set_peers set_heap set_fds set_next] in *.
  - split; [|split].
    + intros x [<-|Hx']; [cbn; lia | specialize (F1 x Hx'); lia].
    + intros i so' E. destruct (Hh i so' E) as [(-> & _)|(_ & E')]; [lia | specialize (F2 _ _ E'); lia].
    + intros t f Ht Ef. specialize (F3 t f Ht Ef); lia.
  - intros i so' E. destruct (Hh i so' E) as [(-> & ->)|(_ & E')].
    + split; [reflexivity|]. exists 0. left; reflexivity.
    + destruct (g_heap0 i so' E') as (A & r & B). split; [exact A|]. exists r. right; exact B.
  - intros x [<-|Hx']; [exists o; exact Ho|]. destruct (g_fds0 x Hx') as (so' & E). exists so'. apply Hb; exact E.
  - cbn. constructor; [|exact g_nodup0]. intros X. apply in_map_iff in X. destruct X as (x & E & Hx'). specialize (F1 x Hx'). lia.
  - intros i. rewrite g_static0. split; intros (so' & A & B).
    + exists so'. split; [|exact B]. apply Hb. exact A.
    + destruct (Hh i so' A) as [(-> & ->)|(_ & E')]; [discriminate | eauto].
  - intros i so' m E K. destruct (Hh i so' E) as [(-> & ->)|(_ & E')].
    + cbn in K. injection K as <-. rewrite upd_same. reflexivity.
    + pose proof (g_dyn0 i so' m E' K) as X. unfold upd. destruct (N.eqb_spec m n) as [->|]; [rewrite Hn in X; discriminate | exact X].
  - intros i so' p E K. destruct (Hh i so' E) as [(-> & ->)|(_ & E')]; [discriminate|].
    destruct (g_offs0 i so' p E' K) as (m & f & Lf & Q). exists m, f. rewrite Eo. auto.
  - intros m i. unfold upd at 1. destruct (N.eqb_spec m n) as [->|].
    + cbn. intros X. injection X as <-. right. exists o. split; [exact Ho | reflexivity].
    + intros Q. destruct (g_sock0 m i Q) as [(so' & A & B)|(so' & A & B)]; [left | right]; exists so'; (split; [|exact B]); apply Hb; exact A.
  - intros m f. rewrite Eo. intros Lf. destruct (g_live0 m f Lf) as (so' & ip' & p & A & B). exists so', ip', p. split; [|exact B]. apply Hb; assumption.
  - intros m1 m2 f1 f2. rewrite !Eo. apply g_one0.
  - intros i so' p E K. destruct (Hh i so' E) as [(-> & ->)|(D & E')]; [discriminate|]. destruct (g_acc0 i so' p E' K) as (A & B). split; [lia|].
    intros so2 E2. destruct (Hh p so2 E2) as [(-> & ->)|(_ & E3)]; [right; exists n; reflexivity | apply B; exact E3].
  - intros X i1 d m i2 t E1 K1 E2 K2. destruct (Hh i2 t E2) as [(-> & ->)|(_ & E2')]; [discriminate|]. destruct (Hh i1 d E1) as [(-> & ->)|(_ & E1')]; [|eapply g_excl0; eassumption].
    cbn. intros Pt. destruct (overlap (so_ip t) ip) eqn:O; [|reflexivity]. exfalso. destruct (g_heap0 i2 t E2') as (_ & r & Hin).
    specialize (Hx X). unfold conflict in Hx. assert (Y : existsb (fun k => (k_port k =? port) && overlap (k_ip k) ip) (s_fds s) = true); [|congruence].
    apply existsb_exists. eexists. split; [exact Hin|]. cbn. rewrite O. lia.
  - intros m f D. rewrite Eo, (Ex m D). apply g_est0; exact D.
  - intros X m f so' p ip' D. rewrite Eo, (Ex m D). intros Lf E K Ip. destruct (Hh _ so' E) as [(E1 & ->)|(_ & E')]; [discriminate|].
    destruct (g_par0 X m f so' p ip' D Lf E' K Ip) as [(so2 & A & B)|(A & B & so2 & A2 & B2)].
    + left. exists so2. split; [|exact B]. apply Hb; exact A.
    + right. split; [|split; [exact B|]].
      * intros i so3 E3 K3. destruct (Hh i so3 E3) as [(-> & ->)|(_ & E3')]; [discriminate | eapply A; eassumption].
      * exists so2. split; [|exact B2]. apply Hb; exact A2.
  - intros t f A B. destruct (g_tun0 t f A B) as (m & e' & X & Y). exists m, e'. rewrite Eo. auto.
  - intros R. destruct (g_work0 R) as (W1 & W2 & W3 & W4 & W5). split; [exact W1|]. split; [exact W2|]. split; [exact W3|]. split.
    + intros m f. rewrite Eo. apply W4.
    + intros m f D. rewrite Eo, (Ex m D). intros Lf. right. apply W5; assumption.
Qed.

Definition no_session (s : st) (n : N) : Prop := forall e, ~ live s n e.
Lemma reset_socket_good : forall c b n v6 ip s, defaults_ok c b -> good c b (Some n) s -> no_session s n ->
  runs (reset_socket c n v6 ip) s (fun _ s' => good c b None s').
Proof.
  intros c b n v6 ip s Df G Nl. unfold reset_socket. apply runs_get_peer.
  assert (Free : runs (free_socket n) s (fun _ s' => good c b (Some n) s' /\ no_session s' n /\ p_sock (s_peers s' n) = None)).
  { eapply runs_imp; [apply free_socket_good; exact G|]. cbn beta. intros _ s1 (G1 & (F1 & F2 & _)). split; [exact G1|]. split; [|rewrite F2; reflexivity].
    intros e. unfold live. rewrite F2. apply Nl. }
  destruct (p_addr (s_peers s n) =? 0).
  { eapply runs_imp; [exact Free|]. cbn beta. intros _ s1 (G1 & N1 & _). eapply good_strengthen; eassumption. }
  apply runs_get.
  destruct (negb match p_sock (s_peers s n) with Some id => match s_heap s id with Some so => match so_kind so with Static => false | _ => true end | None => true end | None => true end).
  { apply runs_ret. eapply good_strengthen; eassumption. }
  eapply runs_then; [exact Free|]. cbn beta. intros _ s1 (G1 & N1 & P1). apply runs_bind.
  assert (Put : forall s2, good c b (Some n) (set_peers (upd (s_peers s2) n (s_peers s2 n)) s2) -> True) by auto. clear Put.
  assert (D : forall d, (if v6 then c_default6 c else c_default4 c) = Some d -> bound b d) by (intros d E; apply Df; destruct v6; auto).
  assert (Nx : forall s2 k, s_peers s2 n = s_peers s1 n -> no_session (set_peers (upd (s_peers s2) n (with_sock k (s_peers s2 n))) s2) n).
  { intros s2 k E e. unfold live. cbn [s_peers set_peers]. rewrite upd_same, E. apply N1. }
  destruct (if v6 then c_default6 c else c_default4 c) as [d|].
  - apply runs_ret. apply runs_get_peer. unfold put_peer. apply runs_put'. destruct (proj1 (g_static _ _ _ _ G1 d) (D d eq_refl)) as (so & A & B).
    apply (good_strengthen c b n); [eapply attach_good; eassumption | apply Nx; reflexivity].
  - unfold socket_open. apply runs_ask. intros a s2 S2. apply runs_ask. intros port s3 S3. apply runs_get.
    assert (G2 : good c b (Some n) s3) by (eapply good_same; [exact S3|]; eapply good_same; [exact S2 | exact G1]).
    assert (E3 : s_peers s3 = s_peers s1) by (destruct S2 as ((_ & _ & _ & A) & _); destruct S3 as ((_ & _ & _ & B) & _); congruence).
    assert (P3 : p_sock (s_peers s3 n) = None) by (rewrite E3; exact P1).
    destruct (negb (a =? 0) || c_exclusive c && conflict ip port (s_fds s3)) eqn:Ec.
    + apply runs_put, runs_ret, runs_get_peer. unfold put_peer. apply runs_put'. cbn beta.
      set (s4 := set_errno _ s3). assert (S4 : same s3 s4) by (unfold same, frame; auto 10). apply (good_strengthen c b n).
      * apply good_peer; [eapply good_same; [exact S4 | exact G2] | symmetry; exact P3 | reflexivity].
      * apply Nx. exact (f_equal (fun f => f n) E3).
    + unfold open_socket, open_fd, fresh. apply runs_bind, runs_bind, runs_bind, runs_get, runs_put, runs_ret, runs_put, runs_ret, runs_put, runs_ret, runs_ret, runs_get_peer.
      unfold put_peer. apply runs_put'. apply (good_strengthen c b n).
      * cbn beta. apply (open_good c b n ip port s3 G2 P3). intros X. rewrite X in Ec. apply orb_false_iff in Ec. tauto.
      * apply Nx. exact (f_equal (fun f => f n) E3).
Qed.

Lemma do_op_good : forall c b o s, defaults_ok c b -> good c b None s -> runsx c (do_op c o) s (fun _ s' => good c b None s').
Proof.
  intros c b o s Df G. destruct o as [id local remote n off ok|n remote v6 ip|n|t ses add]; cbn [do_op].
  - apply on_packet_good. exact G.
  - apply runsx_runs. apply runs_get_peer. destruct (p_est (s_peers s n)) eqn:Ee; [apply runs_ret; exact G|].
    assert (Nl : no_session s n).
    { intros e L. rewrite (g_est _ _ _ _ G n e ltac:(discriminate) L) in Ee. discriminate. }
    apply runs_bind. unfold claim_address. apply runs_get_peer. unfold put_peer. apply runs_put, runs_bind, runs_ret, runs_ret.
    apply reset_socket_good; [exact Df | apply good_peer; [apply good_weaken; exact G | reflexivity | reflexivity] |].
    intros e. unfold live. cbn [s_peers set_peers]. rewrite upd_same. apply Nl.
  - apply runsx_runs. eapply runs_imp; [apply reset_peer_good; apply good_weaken; exact G|]. cbn beta. tauto.
  - apply runsx_runs. destruct add.
    + apply runs_get. destruct (_ || _) eqn:Ec; [apply runs_ret; exact G|]. apply runs_put'. apply orb_false_iff in Ec. destruct Ec as (E1 & E2).
      assert (F : find_tun t (s_tuns s) = None) by (destruct (find_tun t (s_tuns s)); [discriminate | reflexivity]).
      destruct G as [g_fresh0 g_heap0 g_fds0 g_nodup0 g_static0 g_dyn0 g_offs0 g_sock0 g_live0 g_one0 g_acc0 g_excl0 g_est0 g_par0 g_tun0 g_work0].
      constructor; unfold fresh_ok, live, static_at, dynamic_at, no_static, connected, calm in *; cbn [s_fds s_next s_heap s_peers s_tuns s_queue s_skerr set_tuns] in *; try assumption.
      * destruct g_fresh0 as (F1 & F2 & F3). split; [exact F1|]. split; [exact F2|]. intros u f [<-|Hu]; [discriminate | apply F3; exact Hu].
      * intros u f [<-|Hu]; [discriminate | apply g_tun0; exact Hu].
      * intros R. destruct (g_work0 R) as (W1 & W2 & W3 & W4 & W5). split; [exact W1|]. split; [|split; [|split; [|exact W5]]].
        -- cbn. constructor; [|exact W2]. intros X. apply in_map_iff in X. destruct X as (u & E & Hu). exact (proj1 (find_tun_none _ _) F u Hu E).
        -- apply names_cons; [|exact W3]. destruct ses as [m|]; cbn; [|discriminate]. intros m' x X. injection X as <- _. apply orb_false_iff in E2. tauto.
        -- intros m e L. destruct (W4 m e L) as (A & B). split; [right; exact A | exact B].
    + apply runs_put'.
      destruct G as [g_fresh0 g_heap0 g_fds0 g_nodup0 g_static0 g_dyn0 g_offs0 g_sock0 g_live0 g_one0 g_acc0 g_excl0 g_est0 g_par0 g_tun0 g_work0].
      constructor; unfold fresh_ok, live, static_at, dynamic_at, no_static, connected, calm in *; cbn [s_fds s_next s_heap s_peers s_tuns s_queue s_skerr set_tuns] in *; try assumption.
      * destruct g_fresh0 as (F1 & F2 & F3). split; [exact F1|]. split; [exact F2|]. intros u f Hu. apply filter_In in Hu. apply F3; tauto.
      * intros u f Hu. apply filter_In in Hu. apply g_tun0; tauto.
      * intros R. destruct (g_work0 R) as (W1 & W2 & W3 & W4 & W5). split; [exact W1|]. split; [|split; [|split; [|exact W5]]].
        -- apply NoDup_map_filter; exact W2.
        -- apply names_filter; exact W3.
        -- intros m e L. destruct (W4 m e L) as (A & B). split; [|exact B]. cbn [s_tuns set_tuns]. apply filter_In. split; [exact A|]. cbn. lia.
Qed.

Lemma do_ops_good : forall c b l s, defaults_ok c b -> good c b None s -> runsx c (do_ops c l) s (fun _ s' => good c b None s').
Proof.
  intros c b l. induction l as [|o l IH]; intros s Df G; [exact G|]. cbn [do_ops]. eapply runsx_then; [apply (do_op_good c b); assumption|]. cbn beta. auto.
Qed.

(** ** The start *)

Definition blank (c : config) (tuns : list tun) (s : st) : Prop :=
  s_fds s = [] /\ (forall i, s_heap s i = None) /\ s_next s = 2 /\ (forall n, s_peers s n = idle) /\ (forall t, In t (s_tuns s) -> t_fd t = None) /\
  (c_reliable c = true -> calm s /\ s_tuns s = tuns).

Lemma kernel_head : forall r a n fds id x y T e d l, (exists m, r = RSession id m) \/ r = RDelete id -> find_tun id T = None ->
  kernel r a n fds (mk_tun id x y :: T) = (e, d, l) -> exists y', l = mk_tun id x y' :: T.
Proof.
  intros r a n fds id x y T e d l Hr Fn E. unfold kernel in E. destruct (negb (a =? 0)); [injection E as _ _ <-; eauto|].
  assert (F : find_tun id (mk_tun id x y :: T) = Some (mk_tun id x y)) by (unfold find_tun; cbn; rewrite N.eqb_refl; reflexivity).
  assert (W : forall z, with_ses id z (mk_tun id x y :: T) = mk_tun id x z :: T).
  { intros z. cbn. rewrite N.eqb_refl. f_equal. apply (with_ses_none id z T Fn). }
  destruct Hr as [(m & ->)| ->]; rewrite F in E; cbn [t_ses] in E; destruct y as [w|]; try (injection E as _ _ <-; eauto; fail).
  - rewrite W in E. destruct (_ || _); injection E as _ _ <-; eauto.
  - rewrite W in E. injection E as _ _ <-. eauto.
Qed.

Lemma l2tp_init_blank : forall c ans tuns, foreign tuns -> runs (l2tp_init c) (start ans tuns) (fun _ s => blank c tuns s).
Proof.
  intros c ans tuns (Fo & _). unfold l2tp_init. apply runs_ask. intros a s0 ((A1 & A2 & A3 & A4) & A5 & A6 & A7 & A8). cbn in A1, A2, A3, A4, A5, A6, A7, A8.
  destruct (negb (a =? 0)); [exact I|]. apply runs_bind. unfold get_family. eapply runs_then; [apply do_nl_effect|]. cbn beta. intros x s1 P. apply runs_ret.
  pose proof (nl_own _ _ _ _ _ P) as O1. cbn [req_fd] in O1. destruct P as ((B1 & B2 & B3 & B4) & _ & _ & R1).
  assert (K1 : c_reliable c = true -> calm s1 /\ s_tuns s1 = tuns).
  { intros Hc. destruct (R1 Hc ltac:(unfold calm; auto)) as (K & a1 & n1 & e1 & d1 & E & _). split; [exact K|]. unfold kernel in E. destruct (negb (a1 =? 0)); injection E as _ _ <-; exact A5. }
  assert (N1 : forall t f, In t (s_tuns s1) -> t_fd t <> Some f).
  { intros t f Ht Ef. destruct (O1 t f Ht Ef) as [X|(t0 & Ht0 & E0)]; [discriminate|]. rewrite A5 in Ht0. rewrite (Fo t0 Ht0) in E0. discriminate. }
  clear R1 O1. destruct (snd x) as [fam|]; [|exact I].
  unfold selftest. apply runs_ask. intros a2 s2 ((C1 & C2 & C3 & C4) & C5 & C6 & C7 & C8). destruct (negb (a2 =? 0)); [exact I|].
  unfold open_fd, fresh. apply runs_bind, runs_bind, runs_get, runs_put, runs_ret, runs_put, runs_ret. cbn beta.
  assert (Nx : s_next s2 = 1) by congruence. rewrite Nx.
  set (s3 := set_fds _ _). eapply runs_then; [apply new_tunnel_effect|]. cbn beta. intros o s4 (D1 & D2 & D3). destruct o as [id|]; [|exact I].
  destruct D1 as (E1 & E2 & E3 & E4). cbn [s3 s_fds s_next s_heap s_peers set_fds set_next] in E1, E2, E3, E4. change (s_tuns s3) with (s_tuns s2) in *. change (calm s3) with (calm s2) in D3.
  apply runs_bind. unfold session_create. eapply runs_then; [apply do_nl_effect|]. cbn beta. intros y s5 P. apply runs_ret.
  pose proof (nl_own _ _ _ _ _ P) as O5. cbn [req_fd] in O5. destruct P as ((H1 & H2 & H3 & H4) & _ & _ & R5). destruct (negb (fst y)); [exact I|].
  apply runs_bind. unfold session_delete. eapply runs_then; [apply do_nl_effect|]. cbn beta. intros z s6 P. apply runs_ret.
  pose proof (nl_own _ _ _ _ _ P) as O6. cbn [req_fd] in O6. destruct P as ((I1 & I2 & I3 & I4) & _ & _ & R6). destruct (negb (fst z)); [exact I|].
  assert (Fds : s_fds s6 = [mk_kfd 1 None 0 0]) by (rewrite I1, H1, E1, C1, B1, A1; reflexivity).
  eapply runs_imp; [apply close_effect; rewrite Fds; left; reflexivity|]. cbn beta. intros _ s7 ->. unfold blank. cbn [s_fds s_next s_heap s_peers s_tuns set_tuns set_fds].
  split; [rewrite Fds; reflexivity|]. split; [intros i; rewrite I3, H3, E3, C3, B3, A3; reflexivity|]. split; [rewrite I2, H2, E2; lia|]. split; [intros n; rewrite I4, H4, E4, C4, B4, A4; reflexivity|]. split.
  - intros t Ht. apply filter_In in Ht. destruct Ht as (Ht & Hf). destruct (t_fd t) as [f|] eqn:Ef; [exfalso | reflexivity].
    destruct (O6 t f Ht Ef) as [X|(t1 & Ht1 & Ef1)]; [discriminate|]. destruct (O5 t1 f Ht1 Ef1) as [X|(t2 & Ht2 & Ef2)]; [discriminate|].
    destruct (D2 t2 f Ht2 Ef2) as [X|(t3 & Ht3 & Ef3)].
    + injection X as <-. unfold on_fd in Hf. rewrite Ef in Hf. lia.
    + rewrite C5 in Ht3. exact (N1 t3 f Ht3 Ef3).
  - intros Hc. destruct (K1 Hc) as ((K1a & K1b) & T1). destruct (D3 Hc ltac:(unfold calm; split; congruence)) as (K4 & _ & Fn & T4). rewrite C5, T1 in *.
    destruct (R5 Hc K4) as (K5 & a5 & n5 & e5 & d5 & X5 & _). rewrite T4 in X5. destruct (kernel_head _ _ _ _ _ _ _ _ _ _ _ (or_introl (ex_intro _ 0 eq_refl)) Fn X5) as (y5 & T5).
    destruct (R6 Hc K5) as (K6 & a6 & n6 & e6 & d6 & X6 & _). rewrite T5 in X6. destruct (kernel_head _ _ _ _ _ _ _ _ _ _ _ (or_intror eq_refl) Fn X6) as (y6 & T6).
    split; [exact K6|]. rewrite T6. cbn [filter]. unfold on_fd at 1. cbn [t_fd]. rewrite N.eqb_refl. cbn [negb].
    apply filter_id. intros t Ht. unfold on_fd. rewrite (Fo t Ht). reflexivity.
Qed.

Lemma blank_good : forall c tuns s, foreign tuns -> blank c tuns s -> good c [] None s.
Proof.
  intros c tuns s (_ & Fd & Fn) (A1 & A2 & A3 & A4 & A5 & A6).
  assert (Nl : forall n e, ~ live s n e) by (intros n e; unfold live; rewrite A4; discriminate).
  constructor.
  - split; [|split]; [rewrite A1; intros k [] | intros i so; rewrite A2; discriminate | intros t f Ht E; rewrite (A5 t Ht) in E; discriminate].
  - intros i so E. rewrite A2 in E. discriminate.
  - rewrite A1. intros k [].
  - rewrite A1. constructor.
  - intros i. unfold bound, static_at. cbn. split; [lia|]. intros (so & E & _). rewrite A2 in E. discriminate.
  - intros i so n E. rewrite A2 in E. discriminate.
  - intros i so n E. rewrite A2 in E. discriminate.
  - intros n i. rewrite A4. discriminate.
  - intros n e L. destruct (Nl n e L).
  - intros n m e f L. destruct (Nl n e L).
  - intros i so par E. rewrite A2 in E. discriminate.
  - intros _ i1 d n i2 t E. rewrite A2 in E. discriminate.
  - intros n e _ L. destruct (Nl n e L).
  - intros _ n e so par ip _ L. destruct (Nl n e L).
  - intros t f Ht E. rewrite (A5 t Ht) in E. discriminate.
  - intros R. destruct (A6 R) as (K & ->). split; [exact K|]. split; [exact Fd|]. split; [exact Fn|]. split; intros n e; [intros L | intros _ L]; destruct (Nl n e L).
Qed.

(** The socket of a bind address *)
Lemma static_good : forall c b x ip port s, good c b None s -> s_next s = 2 + N.of_nat (length b) -> (forall n, s_peers s n = idle) ->
  good c (b ++ [x]) None (set_heap (upd (s_heap s) (s_next s) (Some (mk_sock (s_next s) ip port Static))) (set_fds (mk_kfd (s_next s) ip port 0 :: s_fds s) (set_next (s_next s + 1) s))).
Proof.
  intros c b x ip port s H Hn Hp.
  destruct H as [g_fresh0 g_heap0 g_fds0 g_nodup0 g_static0 g_dyn0 g_offs0 g_sock0 g_live0 g_one0 g_acc0 g_excl0 g_est0 g_par0 g_tun0 g_work0].
  set (id := s_next s) in *. set (o := mk_sock id ip port Static).
  pose proof g_fresh0 as (F1 & F2 & F3).
  assert (Nl : forall n e, ~ live s n e) by (intros n e; unfold live; rewrite Hp; discriminate).
  assert (Hh : forall i so', upd (s_heap s) id (Some o) i = Some so' -> (i = id /\ so' = o) \/ (i <> id /\ s_heap s i = Some so')).
  { intros i so' E. unfold upd in E. destruct (N.eqb_spec i id); [injection E as <-; auto | auto]. }
  assert (New : forall i so', s_heap s i = Some so' -> i <> id) by (intros i so' E ->; specialize (F2 _ _ E); lia).
  assert (Hb : forall i so', s_heap s i = Some so' -> upd (s_heap s) id (Some o) i = Some so').
  { intros i so' E. rewrite upd_other; [exact E | eauto]. }
  assert (Ho : upd (s_heap s) id (Some o) id = Some o) by apply upd_same.
  constructor; unfold fresh_ok, live, static_at, dynamic_at, no_static, works, connected, calm in *; cbn [s_fds s_next s_heap s_peers s_tuns s_queue s_skerr set_heap set_fds set_next] in *; try assumption.
  - split; [|split].
    + intros k [<-|Hx']; [cbn; lia | specialize (F1 k Hx'); lia].
    + intros i so' E. destruct (Hh i so' E) as [(-> & _)|(_ & E')]; [lia | specialize (F2 _ _ E'); lia].
    + intros t f Ht Ef. specialize (F3 t f Ht Ef); lia.
  - intros i so' E. destruct (Hh i so' E) as [(-> & ->)|(_ & E')].
    + split; [reflexivity|]. exists 0. left; reflexivity.
    + destruct (g_heap0 i so' E') as (A & r & B). split; [exact A|]. exists r. right; exact B.
  - intros k [<-|Hx']; [exists o; exact Ho|]. destruct (g_fds0 k Hx') as (so' & E). exists so'. apply Hb; exact E.
  - cbn. constructor; [|exact g_nodup0]. intros X. apply in_map_iff in X. destruct X as (k & E & Hx'). specialize (F1 k Hx'). lia.
  - intros i. specialize (g_static0 i). unfold bound in *. rewrite app_length. cbn [length]. destruct (N.eqb_spec i id) as [->|D].
    + split; [|lia]. intros _. exists o. split; [exact Ho | reflexivity].
    + rewrite (upd_other _ _ _ _ _ D). rewrite <- g_static0. lia.
  - intros i so' m E K. destruct (Hh i so' E) as [(-> & ->)|(_ & E')]; [discriminate | eauto].
  - intros i so' p E K. destruct (Hh i so' E) as [(-> & ->)|(_ & E')]; [discriminate | eauto].
  - intros n i. rewrite Hp. discriminate.
  - intros n e L. destruct (Nl n e L).
  - intros i so' p E K. destruct (Hh i so' E) as [(-> & ->)|(_ & E')]; [discriminate|]. destruct (g_offs0 i so' p E' K) as (m & e & L & _). destruct (Nl m e L).
  - intros _ i1 d n i2 t E K. destruct (Hh i1 d E) as [(-> & ->)|(_ & E')]; [discriminate|]. pose proof (g_dyn0 i1 d n E' K) as X. rewrite Hp in X. discriminate.
  - intros _ n e so p i _ L. destruct (Nl n e L).
  - intros R. destruct (g_work0 R) as (W1 & W2 & W3 & W4 & W5). split; [exact W1|]. split; [exact W2|]. split; [exact W3|]. split; intros n e; [intros L | intros _ L]; destruct (Nl n e L).
Qed.

Lemma bind_all_good : forall c l b s, good c b None s -> s_next s = 2 + N.of_nat (length b) -> (forall n, s_peers s n = idle) ->
  runs (bind_all l) s (fun _ s' => good c (b ++ l) None s').
Proof.
  intros c l. induction l as [|[ip port] l IH]; intros b s G Hn Hp; [apply runs_ret; rewrite app_nil_r; exact G|].
  cbn [bind_all]. unfold open_socket, open_fd, fresh.
  apply runs_bind, runs_bind, runs_bind, runs_bind, runs_get, runs_put, runs_ret, runs_put, runs_ret, runs_put, runs_ret.
  change ((ip, port) :: l) with ([(ip, port)] ++ l). rewrite app_assoc. apply IH.
  - apply (static_good c b (ip, port) ip port s G Hn Hp).
  - cbn [s_next set_heap set_fds set_next]. rewrite app_length. cbn [length]. lia.
  - exact Hp.
Qed.

Theorem run_good : forall c binds ops ans tuns, foreign tuns -> defaults_ok c binds ->
  runsx c (run c binds ops) (start ans tuns) (fun _ s => good c binds None s).
Proof.
  intros c binds ops ans tuns F D. unfold run. eapply runsx_then; [apply runsx_runs, l2tp_init_blank; exact F|]. cbn beta. intros _ s1 B.
  pose proof (blank_good c tuns s1 F B) as G. destruct B as (_ & _ & B3 & B4 & _).
  eapply runsx_then; [apply runsx_runs, (bind_all_good c binds [] s1 G); [rewrite B3; reflexivity | exact B4]|]. cbn beta. intros _ s2 G2. apply do_ops_good; assumption.
Qed.
