(** What a turn of an unconnected peer does *)
From Verif Require Import Base BufferModel NonceModel MethodModel HandshakeModel NodeModel NodeSpec NodeSteps NodeWf NodeInv NodeFun NodeFun2 NodeSafe NodeSafe2 NodeKeep NodeProofs RetryHoare RetryHoare2 RetryInv RetrySpec.
From Coq Require Import Lia ZifyBool ZifyNat ZifyN Sorted.
Local Open Scope Z_scope.

Section Turn.
Variables (P : params) (pid : N).

(** only [pid] has changed, from [p] to [p'] *)
Record own (p : peer) (n : node) (p' : peer) (n' : node) : Prop := mk_own {
  o_at : find_id (n_peers n) pid = Some p; o_id : p_id p' = pid; o_peers : n_peers n' = upd_id (n_peers n) pid (fun _ => p');
  o_now : n_now n' = n_now n; o_out : n_out n' = n_out n
}.
(** whatever happened to others *)
Record mv (l : list out) (p : peer) (n : node) (p' : peer) (n' : node) : Prop := mk_mv {
  v_at : find_id (n_peers n) pid = Some p; v_at' : find_id (n_peers n') pid = Some p';
  v_now : n_now n' = n_now n; v_out : n_out n' = map (fun o => (n_now n, o)) l ++ n_out n
}.
Lemma find_upd : forall l f p, find_id l pid = Some p -> p_id (f p) = pid -> find_id (upd_id l pid f) pid = Some (f p).
Proof.
  induction l as [|x l IH]; intros f p H E; [discriminate|]. unfold find_id, upd_id in *. cbn [find map] in *. destruct (N.eqb_spec (p_id x) pid) as [Ex|Ex].
  - injection H as ->. rewrite E, N.eqb_refl. reflexivity.
  - destruct (N.eqb_spec (p_id x) pid); [contradiction|]. apply IH; assumption.
Qed.
Lemma upd_upd : forall l p f, p_id p = pid -> upd_id (upd_id l pid (fun _ => p)) pid f = upd_id l pid (fun _ => f p).
Proof.
  intros l p f E. unfold upd_id. rewrite map_map. apply map_ext. intros x. destruct (N.eqb (p_id x) pid) eqn:Ex; [rewrite E, N.eqb_refl; reflexivity | rewrite Ex; reflexivity].
Qed.
Lemma upd_self : forall n p, ids_ok n -> find_id (n_peers n) pid = Some p -> upd_id (n_peers n) pid (fun _ => p) = n_peers n.
Proof.
  intros n p I H. apply find_id_in in H. destruct H as [Hp Hi]. rewrite <- (map_id (n_peers n)) at 2. apply map_ext_in. intros q Hq.
  destruct (N.eqb_spec (p_id q) pid) as [E|E]; [|reflexivity]. symmetry. apply (ids_inj n q p I Hq Hp). congruence.
Qed.
Lemma upd_fun : forall n p f, ids_ok n -> find_id (n_peers n) pid = Some p -> upd_id (n_peers n) pid f = upd_id (n_peers n) pid (fun _ => f p).
Proof.
  intros n p f I H. apply find_id_in in H. destruct H as [Hp Hi]. apply map_ext_in. intros q Hq. destruct (N.eqb_spec (p_id q) pid) as [E|E]; [|reflexivity].
  f_equal. apply (ids_inj n q p I Hq Hp). congruence.
Qed.
Lemma own_refl : forall n p, ids_ok n -> find_id (n_peers n) pid = Some p -> own p n p n.
Proof. intros n p I H. constructor; [exact H | apply (find_id_in _ _ _ H) | symmetry; apply upd_self; assumption | reflexivity | reflexivity]. Qed.
Lemma own_find : forall p n p' n', own p n p' n' -> find_id (n_peers n') pid = Some p'.
Proof. intros p n p' n' [A B C D E]. rewrite C. apply (find_upd _ (fun _ => p') p A B). Qed.
Lemma own_wr : forall p n p1 n1 f x n', own p n p1 n1 -> keeps_id f -> wr pid f n1 = Ok (x, n') -> own p n (f p1) n'.
Proof.
  intros p n p1 n1 f x n' O K H. pose proof (own_find _ _ _ _ O) as Hf. destruct O as [A B C D E]. apply wr_ok in H. destruct H as (q & Hq & ->). rewrite Hf in Hq. injection Hq as <-.
  constructor; [exact A | rewrite K; exact B | | exact D | exact E]. cbn [n_peers set_n_peers]. rewrite C. apply upd_upd. exact B.
Qed.
Lemma own_rd : forall p n p1 n1 q n', own p n p1 n1 -> rd pid n1 = Ok (q, n') -> q = p1 /\ n' = n1.
Proof. intros p n p1 n1 q n' O H. apply rd_ok in H. destruct H as [H ->]. rewrite (own_find _ _ _ _ O) in H. injection H as <-. split; reflexivity. Qed.
Lemma own_orc : forall p n p1 n1 l, own p n p1 n1 -> own p n p1 (set_n_orc l n1).
Proof. intros p n p1 n1 l [A B C D E]. constructor; assumption. Qed.
Lemma own_mv : forall p n p1 n1, own p n p1 n1 -> mv [] p n p1 n1.
Proof. intros p n p1 n1 O. pose proof (own_find _ _ _ _ O) as Hf. destruct O as [A B C D E]. constructor; assumption. Qed.
Lemma mv_wr : forall l p n p1 n1 f x n', mv l p n p1 n1 -> keeps_id f -> wr pid f n1 = Ok (x, n') -> mv l p n (f p1) n'.
Proof.
  intros l p n p1 n1 f x n' [A B C D] K H. apply wr_ok in H. destruct H as (q & Hq & ->). rewrite B in Hq. injection Hq as <-. constructor; [exact A | | exact C | exact D].
  cbn [n_peers set_n_peers]. apply find_upd; [exact B|]. rewrite K. apply (find_id_in _ _ _ B).
Qed.
Lemma mv_rd : forall l p n p1 n1 q n', mv l p n p1 n1 -> rd pid n1 = Ok (q, n') -> q = p1 /\ n' = n1.
Proof. intros l p n p1 n1 q n' O H. apply rd_ok in H. destruct H as [H ->]. rewrite (v_at' _ _ _ _ _ O) in H. injection H as <-. split; reflexivity. Qed.
Lemma mv_frame : forall l p n p1 n1 n', mv l p n p1 n1 -> n_peers n' = n_peers n1 -> n_now n' = n_now n1 -> n_out n' = n_out n1 -> mv l p n p1 n'.
Proof. intros l p n p1 n1 n' [A B C D] E1 E2 E3. constructor; [exact A | rewrite E1; exact B | congruence | congruence]. Qed.
Lemma mv_pop : forall l p n p1 n1 x n', mv l p n p1 n1 -> pop n1 = Ok (x, n') -> mv l p n p1 n'.
Proof. intros l p n p1 n1 x n' M H. apply pop_orc in H. destruct H as [o ->]. eapply mv_frame; [exact M | reflexivity | reflexivity | reflexivity]. Qed.
Lemma mv_flip : forall l p n p1 n1 x n', mv l p n p1 n1 -> flip n1 = Ok (x, n') -> mv l p n p1 n'.
Proof. intros l p n p1 n1 x n' M H. unfold flip in H. bind H as y m H1. apply ret_ok in H. destruct H as [_ ->]. exact (mv_pop _ _ _ _ _ _ _ M H1). Qed.
Lemma mv_emit : forall l p n p1 n1 o x n', mv l p n p1 n1 -> emit o n1 = Ok (x, n') -> mv (o :: l) p n p1 n'.
Proof. intros l p n p1 n1 o x n' [A B C D] H. apply emit_ok in H. subst n'. constructor; [exact A | exact B | exact C | cbn [n_out set_n_out map app]; rewrite D, C; reflexivity]. Qed.
Lemma mv_remote : forall l p n p1 n1 i r n', mv l p n p1 n1 -> rd_remote pid i n1 = Ok (r, n') -> n' = n1 /\ nth_error (p_remotes p1) i = Some r.
Proof. intros l p n p1 n1 i r n' M H. apply rd_remote_ok in H. destruct H as (-> & q & Hq & Hr). rewrite (v_at' _ _ _ _ _ M) in Hq. injection Hq as <-. split; [reflexivity | exact Hr]. Qed.

(** ** Claiming an address *)
Lemma refused : forall l a, claim_scan l pid a false = ClRefused ->
  exists q, In q l /\ p_id q <> pid /\ is_enabled q = true /\ (owns_address q a = true \/ (p_addr q = Some a /\ is_established q = true)).
Proof.
  induction l as [|x l IH]; intros a H; cbn [claim_scan] in H; [discriminate|].
  assert (R : claim_scan l pid a false = ClRefused -> exists q, In q (x :: l) /\ p_id q <> pid /\ is_enabled q = true /\ (owns_address q a = true \/ (p_addr q = Some a /\ is_established q = true))).
  { intros X. destruct (IH _ X) as (q & A & B). exists q. split; [right; exact A | exact B]. }
  destruct (N.eqb_spec (p_id x) pid) as [|Hne]; [exact (R H)|]. destruct (is_enabled x) eqn:Een; [|exact (R H)]. cbn [negb] in H. destruct (owns_address x a) eqn:Eo.
  - exists x. repeat split; try assumption; [left; reflexivity | left; exact Eo].
  - destruct (addr_eqb (p_addr x) (Some a)) eqn:Ea; [|exact (R H)]. destruct (is_established x) eqn:Ee; [|discriminate].
    exists x. repeat split; try assumption; [left; reflexivity|]. right. split; [apply addr_eqb_true; exact Ea | exact Ee].
Qed.
Lemma owns_spec : forall q a, owns_address q a = true -> is_floating q = false /\ exists r, In r (p_remotes q) /\ r_host r = None /\ r_addr r = a.
Proof.
  intros q a H. unfold owns_address in H. destruct (is_floating q); [discriminate|]. split; [reflexivity|]. apply existsb_exists in H. destruct H as (r & Hr & Ha). exists r. split; [exact Hr|].
  destruct (r_host r); [discriminate|]. split; [reflexivity|]. apply N.eqb_eq. exact Ha.
Qed.
Lemma others_in : forall p n p' n' q, own p n p' n' -> p_id q <> pid -> In q (n_peers n') -> In q (n_peers n).
Proof.
  intros p n p' n' q [A B C D E] Hq H. rewrite C in H. apply in_upd in H. destruct H as [[H _] | (x & _ & _ & ->)]; [exact H | contradiction].
Qed.

Lemma evict_other : forall l a e, claim_scan l pid a false = ClEvict e -> e <> pid.
Proof.
  induction l as [|x l IH]; intros a e H; cbn [claim_scan] in H; [discriminate|]. destruct (N.eqb_spec (p_id x) pid) as [|Hne]; [exact (IH _ _ H)|].
  destruct (negb (is_enabled x)); [exact (IH _ _ H)|]. destruct (owns_address x a); [discriminate|]. destruct (addr_eqb _ _); [|exact (IH _ _ H)].
  destruct (negb false && is_established x)%bool; [discriminate|]. injection H as <-. exact Hne.
Qed.
Lemma find_upd_other : forall l e f, e <> pid -> keeps_id f -> find_id (upd_id l e f) pid = find_id l pid.
Proof.
  induction l as [|x l IH]; intros e f He K; [reflexivity|]. unfold find_id, upd_id in *. cbn [find map]. destruct (N.eqb_spec (p_id x) e) as [E|E].
  - rewrite K. destruct (N.eqb_spec (p_id x) pid) as [E'|E']; [congruence | apply IH; assumption].
  - destruct (N.eqb (p_id x) pid); [reflexivity | apply IH; assumption].
Qed.
(** the peer has its new address, or another peer has it *)
Lemma claimed : forall p n p1 n1 a b n', own p n p1 n1 -> ids_ok n1 -> is_established p1 = false -> claim_address P pid None None a false n1 = Ok (b, n') ->
  (mv [] p n (set_p_addr (Some a) p1) n') \/
  (mv [] p n (set_p_addr None p1) n' /\ exists q, In q (n_peers n) /\ p_id q <> pid /\ is_enabled q = true /\ (owns_address q a = true \/ (p_addr q = Some a /\ is_established q = true))).
Proof.
  intros p n p1 n1 a b n' O I He H. unfold claim_address in H. bind H as l m H1. apply gets_ok in H1. destruct H1 as [-> ->]. pose proof (own_mv _ _ _ _ O) as M.
  assert (Hrest : forall m0, mv [] p n p1 m0 -> (wr pid (set_p_addr (Some a)) ;; ret tt ;; ret tt ;; ret true) m0 = Ok (b, n') -> mv [] p n (set_p_addr (Some a) p1) n').
  { intros m0 M0 H0. bind H0 as u m2 H2. bind H0 as u2 m3 H3. apply ret_ok in H3. destruct H3 as [_ ->]. bind H0 as u3 m4 H4. apply ret_ok in H4. destruct H4 as [_ ->].
    apply ret_ok in H0. destruct H0 as [_ ->]. eapply mv_wr; [exact M0 | intros q; reflexivity | exact H2]. }
  destruct (claim_scan (n_peers n1) pid a false) as [| |e] eqn:Ec.
  - left. bind H as u m1 H1. apply ret_ok in H1. destruct H1 as [_ ->]. exact (Hrest _ M H).
  - right. bind H as u m1 H1. apply ret_ok in H. destruct H as [_ ->]. unfold reset_peer_address in H1. bind H1 as q m2 H2. destruct (mv_rd _ _ _ _ _ _ _ M H2) as [-> ->]. rewrite He in H1.
    split; [eapply mv_wr; [exact M | intros q; reflexivity | exact H1]|]. destruct (refused _ _ Ec) as (q & Hq & Hi & Hr). exists q. split; [exact (others_in _ _ _ _ _ O Hi Hq)|]. split; assumption.
  - left. bind H as u m1 H1. apply (Hrest m1); [|exact H]. destruct (claim_scan_evict _ _ _ _ _ Ec) as (x & Hx & Hxi & Hxa & _ & Hxe). pose proof (in_find n1 x I Hx) as Hfx. rewrite Hxi in Hfx.
    unfold reset_peer_address in H1. bind H1 as q m2 H2. apply rd_ok in H2. destruct H2 as [Hq ->]. rewrite Hfx in Hq. injection Hq as <-. rewrite (Hxe eq_refl) in H1.
    apply wr_ok in H1. destruct H1 as (q & _ & ->). constructor; [apply (v_at _ _ _ _ _ M) | | exact (o_now _ _ _ _ O) | exact (v_out _ _ _ _ _ M)].
    cbn [n_peers set_n_peers]. rewrite find_upd_other; [exact (v_at' _ _ _ _ _ M) | exact (evict_other _ _ _ Ec) | intros y; reflexivity].
Qed.

Lemma sock_reset : forall l p n p1 n1 x n', mv l p n p1 n1 -> reset_socket pid n1 = Ok (x, n') ->
  exists s, mv l p n (set_p_sock s p1) n' /\ (p_addr p1 = None -> s = None).
Proof.
  intros l p n p1 n1 x n' M H. unfold reset_socket in H. bind H as q m H1. destruct (mv_rd _ _ _ _ _ _ _ M H1) as [-> ->].
  assert (Hfree : forall m0 y m', mv l p n p1 m0 -> free_socket pid m0 = Ok (y, m') -> mv l p n (set_p_sock None p1) m').
  { intros m0 y m' M0 Hf. apply free_socket_ok in Hf. destruct Hf as (q & Hq & [[Hs ->] | ->]).
    - rewrite (v_at' _ _ _ _ _ M0) in Hq. injection Hq as <-. replace (set_p_sock None p1) with p1; [exact M0|]. rewrite <- Hs. destruct p1; reflexivity.
    - destruct M0 as [A B C D]. constructor; [exact A | | exact C | exact D]. cbn [n_peers set_n_peers]. apply find_upd; [exact B|]. apply (find_id_in _ _ _ B). }
  destruct (p_addr p1) as [a|] eqn:Ea.
  - destruct (negb (is_sock_dynamic p1)).
    + apply ret_ok in H. destruct H as [_ ->]. exists (p_sock p1). split; [|discriminate]. replace (set_p_sock (p_sock p1) p1) with p1 by (destruct p1; reflexivity). exact M.
    + bind H as u m1 H2. apply Hfree in H2; [|exact M]. bind H as hd m2 H3. apply (mv_flip _ _ _ _ _ _ _ H2) in H3. bind H as z m3 H4. apply (mv_pop _ _ _ _ _ _ _ H3) in H4.
      destruct hd.
      * eapply mv_wr in H; [|exact H4 | intros q; reflexivity]. exists (Some (SBound z)). split; [exact H | discriminate].
      * destruct (N.eqb z 0).
        -- apply ret_ok in H. destruct H as [_ ->]. exists None. split; [exact H4 | discriminate].
        -- bind H as i m4 H5. apply gets_ok in H5. destruct H5 as [-> ->]. bind H as u2 m5 H6. apply modn_ok in H6. subst m5.
           eapply mv_wr in H; [| eapply mv_frame; [exact H4 | reflexivity | reflexivity | reflexivity] | intros q; reflexivity].
           exists (Some (SDyn pid (n_next_sock m3))). split; [exact H | discriminate].
  - apply Hfree in H; [|exact M]. exists None. split; [exact H | reflexivity].
Qed.

(** ** Sending *)
Definition touched (p p' : peer) : Prop := exists a b c d, p' = set_p_lh_to a (set_p_lh_addr b (set_p_sock c (set_p_addr d p))).
Lemma touched_refl : forall p, touched p p.
Proof. intros p. exists (p_lh_to p), (p_lh_addr p), (p_sock p), (p_addr p). destruct p; reflexivity. Qed.

Lemma init_sent : forall l p n p1 n1 sk a h x n', mv l p n p1 n1 -> p_next_hs p1 = Some h -> handshake_init (Some sk) (Some a) (Some pid) n1 = Ok (x, n') -> mv (OInit (Some pid) a :: l) p n p1 n'.
Proof.
  intros l p n p1 n1 sk a h x n' M Hh H. unfold handshake_init in H. bind H as u m H1. unfold maintenance in H1. apply modn_ok in H1.
  assert (M1 : mv l p n p1 m) by (subst m; destruct (timed_out _ _); [eapply mv_frame; [exact M | reflexivity | reflexivity | reflexivity] | exact M]). clear H1.
  apply send_packet_ok in H. destruct H as (s & b & _ & Eb & _ & H). injection Eb as <-.
  assert (M2 : mv (OInit (Some pid) a :: l) p n p1 (set_n_out ((n_now m, OInit (Some pid) a) :: n_out m) m)) by (eapply mv_emit; [exact M1 | reflexivity]).
  unfold send_retry in H. bind H as retry m2 H2. apply (mv_flip _ _ _ _ _ _ _ M2) in H2. unfold when in H. destruct retry; [|apply ret_ok in H; destruct H as [_ ->]; exact H2].
  bind H as q m3 H3. destruct (mv_rd _ _ _ _ _ _ _ H2 H3) as [-> ->]. rewrite Hh in H. apply ret_ok in H. destruct H as [_ ->]. exact H2.
Qed.

Lemma sent : forall p n p1 n1 i h b n', own p n p1 n1 -> ids_ok n1 -> is_established p1 = false -> p_next_hs p1 = Some h ->
  (p_lh_addr p1 = None \/ p_lh_to p1 <= n_now n) -> p_id p = pid -> send_handshake P pid (Some i) n1 = Ok (b, n') ->
  exists r p2 l, nth_error (p_remotes p1) i = Some r /\ touched p1 p2 /\ mv l p n p2 n' /\
    match nth_error (r_addrs r) (r_cur r) with
    | None => r_addrs r = [] /\ l = []
    | Some a => l = [OInit (Some pid) a] \/ (l = [] /\ (taken n p a \/ p_sock p2 = None))
    end.
Proof.
  intros p n p1 n1 i h b n' O I He Hh Hl Hpid H. unfold send_handshake in H. pose proof (own_mv _ _ _ _ O) as M. bind H as q m H1. destruct (own_rd _ _ _ _ _ _ O H1) as [-> ->]. clear H1.
  rewrite He in H. cbn [negb] in H. bind H as go m1 H1. bind H1 as r m2 H2. destruct (mv_remote _ _ _ _ _ _ _ _ M H2) as [-> Hr]. exists r.
  destruct (r_addrs r) as [|a0 as0] eqn:Ea.
  - apply ret_ok in H1. destruct H1 as [<- ->]. cbn [negb] in H. apply ret_ok in H. destruct H as [_ ->]. exists p1, []. split; [exact Hr|]. split; [apply touched_refl|]. split; [exact M|].
    destruct (r_cur r); cbn; split; reflexivity.
  - destruct (nth_error (a0 :: as0) (r_cur r)) as [a|] eqn:En; [|discriminate]. bind H1 as c m3 H3. bind H1 as u m4 H4. apply ret_ok in H1. destruct H1 as [<- ->]. cbn [negb] in H.
    bind H as q m5 H5. bind H as now m6 H6. apply gets_ok in H6. destruct H6 as [-> ->].
    destruct (claimed _ _ _ _ _ _ _ O I He H3) as [M3 | [M3 (q0 & T1 & T2 & T3 & T4)]].
    + destruct (sock_reset _ _ _ _ _ _ _ M3 H4) as (s & M4 & _). destruct (mv_rd _ _ _ _ _ _ _ M4 H5) as [-> ->]. cbn [p_sock set_p_sock p_addr set_p_addr p_lh_to p_lh_addr] in H.
      destruct s as [sk|].
      * assert (Et : (negb (timed_out (n_now m4) (p_lh_to p1)) && addr_eqb (Some a) (p_lh_addr p1))%bool = false).
        { destruct Hl as [-> | Hl]; [destruct (negb _); reflexivity|]. rewrite (v_now _ _ _ _ _ M4). unfold timed_out. destruct (Z.leb_spec (p_lh_to p1) (n_now n)); [reflexivity | lia]. }
        change (p_lh_to (set_p_sock (Some sk) (set_p_addr (Some a) p1))) with (p_lh_to p1) in H. change (p_lh_addr (set_p_sock (Some sk) (set_p_addr (Some a) p1))) with (p_lh_addr p1) in H.
        rewrite Et in H. bind H as u2 m7 H7. bind H as u3 m8 H8. apply ret_ok in H. destruct H as [_ ->].
        eapply mv_wr in H7; [|exact M4 | intros q; reflexivity]. eapply init_sent in H8; [|exact H7 | exact Hh].
        eexists. exists [OInit (Some pid) a]. split; [exact Hr|]. split; [|split; [exact H8 | left; reflexivity]]. eexists _, _, _, _. reflexivity.
      * apply ret_ok in H. destruct H as [_ ->]. exists (set_p_sock None (set_p_addr (Some a) p1)), []. split; [exact Hr|]. split; [|split; [exact M4|]].
        -- exists (p_lh_to p1), (p_lh_addr p1), None, (Some a). destruct p1; reflexivity.
        -- right. split; [reflexivity|]. right. reflexivity.
    + destruct (sock_reset _ _ _ _ _ _ _ M3 H4) as (s & M4 & Hs). specialize (Hs eq_refl). subst s. destruct (mv_rd _ _ _ _ _ _ _ M4 H5) as [-> ->]. cbn [p_sock set_p_sock] in H.
      apply ret_ok in H. destruct H as [_ ->]. exists (set_p_sock None (set_p_addr None p1)), []. split; [exact Hr|]. split; [|split; [exact M4|]].
      * exists (p_lh_to p1), (p_lh_addr p1), None, None. destruct p1; reflexivity.
      * right. split; [reflexivity|]. left. exists q0. split; [exact T1|]. split; [congruence|]. split; [exact T3|]. destruct T4 as [T4 | T4]; [left; apply owns_spec; exact T4 | right; exact T4].
Qed.
End Turn.
