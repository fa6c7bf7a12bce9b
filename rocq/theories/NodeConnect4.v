(** Two nodes connect, part 4: the three packets of the handshake. *)
From Verif Require Import Base BaseLemmas BufferModel BufferProofs NonceModel MethodModel HandshakeModel HandshakeSpec HandshakeProofs HandshakeProofs2 HandshakeProofs3
  NodeModel NodeSpec NodeKeepSpec NodeSteps NodeWf NodeInv NodeFun4 NodeProofs NodeProofs3 NodeWire NodeConnectSpec NodeConnect NodeConnect2 NodeConnect3.
From Coq Require Import Lia ZifyBool ZifyNat ZifyN Sorted.
Local Open Scope Z_scope.

Definition maint (n : node) : node :=
  if timed_out (n_now n) (k_preferred_till (n_cur n)) then
    set_n_cur (mk_hkey (k_serial (n_cur n) + 1)%N (n_now n + 15000) (n_now n + 30000)) (set_n_prev (n_cur n) n)
  else n.
Lemma maint_same : forall n, n_peers (maint n) = n_peers n /\ n_now (maint n) = n_now n /\ n_floating (maint n) = n_floating n /\
  n_orc (maint n) = n_orc n /\ n_out (maint n) = n_out n.
Proof. intros n. unfold maint. destruct (timed_out _ _); repeat split. Qed.

(** ** A peer in the list of a reachable node *)
Lemma split_peer : forall n p, ids_ok n -> In p (n_peers n) -> exists l1 l2, n_peers n = l1 ++ p :: l2 /\ others l1 l2 (p_id p).
Proof.
  intros n p [Hs _] Hin. destruct (in_split _ _ Hin) as (l1 & l2 & E). exists l1, l2. split; [exact E|].
  apply sorted_nodup in Hs. unfold ids in Hs. rewrite E, map_app in Hs. cbn [map] in Hs. apply NoDup_remove_2 in Hs.
  intros q Hq Ei. apply Hs. rewrite <- map_app. rewrite <- Ei. apply in_map. exact Hq.
Qed.

Lemma not_owns : forall q a, ~ configured_at q a -> owns_address q a = false.
Proof.
  intros q a H. unfold owns_address, is_floating. destruct (p_remotes q) as [|r0 rs] eqn:Er; [reflexivity|].
  destruct (p_floating q) eqn:Ef; cbn [orb]; [reflexivity|].
  destruct (existsb _ _) eqn:Ex; [|reflexivity]. exfalso. apply existsb_exists in Ex. destruct Ex as (r & Hr & Ha). apply H. split; [exact Ef|].
  exists r. rewrite Er. split; [exact Hr|]. destruct (r_host r); [discriminate|]. split; [reflexivity|]. apply N.eqb_eq. exact Ha.
Qed.
Lemma may_match : forall p a, (p_remotes p = [] \/ p_floating p = true \/ exists r, In r (p_remotes p) /\ In a (r_addrs r)) -> matches_address p a = true.
Proof.
  intros p a H. unfold matches_address, is_floating. destruct (p_remotes p) as [|r0 rs] eqn:Er; [reflexivity|].
  destruct (p_floating p); cbn [orb]; [reflexivity|]. destruct H as [H | [H | (r & Hr & Ha)]]; try discriminate.
  apply existsb_exists. exists r. split; [exact Hr|]. apply existsb_exists. exists a. split; [exact Ha | apply N.eqb_refl].
Qed.

Lemma find_key_skip : forall l key a acc, (forall q, In q l -> p_key q <> key /\ owns_address q a = false) ->
  find_key l key a acc = match acc with Some pid => MatchPeer pid | None => MatchNone end.
Proof.
  induction l as [|q l IH]; intros key a acc H; [reflexivity|]. cbn [find_key]. destruct (H q (or_introl eq_refl)) as [H1 H2].
  destruct (negb (is_enabled q)); [apply IH; intros x Hx; apply H; right; exact Hx|]. destruct (bytes_eqb_spec (p_key q) key) as [X|_]; [contradiction|].
  rewrite H2. apply IH. intros x Hx. apply H. right. exact Hx.
Qed.
Lemma find_key_mid : forall l1 l2 p a acc, (forall q, In q (l1 ++ l2) -> p_key q <> p_key p /\ owns_address q a = false) ->
  p_conf p = CStatic -> matches_address p a = true -> find_key (l1 ++ p :: l2) (p_key p) a acc = MatchPeer (p_id p).
Proof.
  induction l1 as [|q l1 IH]; intros l2 p a acc H Hc Hm; cbn [app find_key].
  - unfold is_enabled. rewrite Hc. cbn [negb]. destruct (bytes_eqb_spec (p_key p) (p_key p)) as [_|X]; [|contradiction]. rewrite Hm. cbn [negb].
    rewrite find_key_skip by exact H. reflexivity.
  - destruct (H q (or_introl eq_refl)) as [H1 H2]. assert (H' : forall x, In x (l1 ++ l2) -> p_key x <> p_key p /\ owns_address x a = false) by (intros x Hx; apply H; right; exact Hx).
    destruct (negb (is_enabled q)); [apply IH; assumption|]. destruct (bytes_eqb_spec (p_key q) (p_key p)) as [X|_]; [contradiction|]. rewrite H2. apply IH; assumption.
Qed.
Lemma lookup_mid : forall l1 l2 p a, (forall q, In q (l1 ++ l2) -> p_addr q <> Some a) ->
  lookup_addr (l1 ++ p :: l2) a = if addr_eqb (p_addr p) (Some a) then Some (p_id p) else None.
Proof.
  intros l1 l2 p a H. unfold lookup_addr.
  assert (G : forall l, (forall q, In q l -> p_addr q <> Some a) -> forall r, find (fun q => addr_eqb (p_addr q) (Some a)) (l ++ r) = find (fun q => addr_eqb (p_addr q) (Some a)) r).
  { clear. induction l as [|q l IH]; intros H r; [reflexivity|]. cbn [app find]. destruct (addr_eqb (p_addr q) (Some a)) eqn:E.
    - exfalso. apply (H q (or_introl eq_refl)). unfold addr_eqb in E. destruct (p_addr q); [|discriminate]. apply N.eqb_eq in E. subst. reflexivity.
    - apply IH. intros x Hx. apply H. right. exact Hx. }
  rewrite G by (intros q Hq; apply H; apply in_or_app; left; exact Hq). cbn [find]. destruct (addr_eqb (p_addr p) (Some a)); [reflexivity|].
  pose proof (G l2 (fun q Hq => H q (in_or_app _ _ _ (or_intror Hq))) []) as X. rewrite app_nil_r in X. rewrite X. reflexivity.
Qed.
Lemma claim_mid : forall l1 l2 p a force, others l1 l2 (p_id p) -> (forall q, In q (l1 ++ l2) -> p_addr q <> Some a /\ owns_address q a = false) ->
  claim_scan (l1 ++ p :: l2) (p_id p) a force = ClFree.
Proof.
  intros l1 l2 p a force Ho H.
  assert (G : forall l, (forall q, In q l -> p_id q <> p_id p /\ p_addr q <> Some a /\ owns_address q a = false) -> forall r,
    claim_scan (l ++ r) (p_id p) a force = claim_scan r (p_id p) a force).
  { clear. induction l as [|q l IH]; intros H r; [reflexivity|]. cbn [app claim_scan]. destruct (H q (or_introl eq_refl)) as (H1 & H2 & H3).
    assert (H' : forall x, In x l -> p_id x <> p_id p /\ p_addr x <> Some a /\ owns_address x a = false) by (intros x Hx; apply H; right; exact Hx).
    destruct (N.eqb_spec (p_id q) (p_id p)) as [X|_]; [contradiction|]. destruct (negb (is_enabled q)); [apply IH; exact H'|]. rewrite H3.
    destruct (addr_eqb (p_addr q) (Some a)) eqn:E; [|apply IH; exact H'].
    exfalso. apply H2. unfold addr_eqb in E. destruct (p_addr q); [|discriminate]. apply N.eqb_eq in E. subst. reflexivity. }
  rewrite G by (intros q Hq; assert (Hin : In q (l1 ++ l2)) by (apply in_or_app; left; exact Hq); split; [apply Ho; exact Hin | apply H; exact Hin]).
  cbn [claim_scan]. rewrite N.eqb_refl. rewrite <- (app_nil_r l2).
  rewrite G by (intros q Hq; assert (Hin : In q (l1 ++ l2)) by (apply in_or_app; right; exact Hq); split; [apply Ho; exact Hin | apply H; exact Hin]). reflexivity.
Qed.

(** ** From the datagram to the handler *)
Record situation (P : params) (n : node) (l1 l2 : list peer) (p : peer) (sk : sock) (ra : addr) : Prop := mk_situation {
  s_split : n_peers n = l1 ++ p :: l2;
  s_others : others l1 l2 (p_id p);
  s_rest : forall q, In q (l1 ++ l2) -> p_key q <> p_key p /\ p_addr q <> Some ra /\ owns_address q ra = false;
  s_static : p_conf p = CStatic;
  s_usable : usable (p_id p) sk p;
  s_owner : forall o i, p_sock p = Some (SDyn o i) -> o = p_id p;
  s_cache : forall c, p_cache p = Some c -> c_shared P false (hc_serial c) (p_key p) (hc_hk c) = Some (hc_sigma c, hc_key c);
  s_heard : p_addr p = Some ra \/ (exists k, sk = SBound k) /\ matches_address p ra = true /\ (n_floating n || allow_verify P)%bool = true
}.

Lemma hears_situation : forall P n p sk ra, inv0 P n -> hears P n p sk ra -> exists l1 l2, situation P n l1 l2 p sk ra.
Proof.
  intros P n p sk ra I (Hin & Hst & Hoth & Hsk). pose proof (i_wf _ _ I) as W. pose proof (i_pinv _ _ I p Hin) as Pi.
  destruct (split_peer n p (wf_ids _ W) Hin) as (l1 & l2 & E & Ho). exists l1, l2. constructor; try assumption.
  - intros q Hq. assert (Hqn : In q (n_peers n)) by (rewrite E; apply in_app_or in Hq; apply in_or_app; destruct Hq; [left | right; right]; assumption).
    split; [|destruct (Hoth q Hqn (Ho q Hq)) as [X Y]; split; [exact X | apply not_owns; exact Y]].
    pose proof (wf_key _ W) as K. unfold uniq_key in K. rewrite E, map_app in K. cbn [map] in K. apply NoDup_remove_2 in K. intros Ek. apply K.
    rewrite <- map_app, <- Ek. apply in_map. exact Hq.
  - destruct sk as [k|o i]; [exact Logic.I|]. destruct Hsk as [Hs _]. split; [exact (pi_sock _ _ Pi o i Hs) | exact Hs].
  - exact (pi_sock _ _ Pi).
  - exact (pi_cache _ _ Pi).
  - destruct sk as [k|o i]; [|left; exact (proj2 Hsk)]. destruct Hsk as [X | [X Y]]; [left; exact X|]. right. split; [exists k; reflexivity|].
    split; [apply may_match; exact X|]. destruct Y as [-> | Y]; [reflexivity|]. unfold allow_verify. destruct (c_verify P); [apply Bool.orb_true_r | contradiction].
Qed.

Lemma addr_eqb_same : forall a, addr_eqb (Some a) (Some a) = true. Proof. intros a. apply N.eqb_refl. Qed.

Lemma heard : forall P n l1 l2 p sk la ra d pkt h w (Q : unit -> node -> Prop), situation P n l1 l2 p sk ra ->
  classify d = PHandshake pkt true -> handshake_handle (c_hs P) pkt true = Ok (HProtocol h) -> view pkt h = Ok w -> w_sender w = Some (p_key p) ->
  does (handshake_from P sk la ra (p_id p) w) (maint n) Q -> does (handle P (EvRecv sk la ra d)) n Q.
Proof.
  intros P n l1 l2 p sk la ra d pkt h w Q S Hc Hh Hv Hw H. destruct S as [E Ho Hr Hst Hu Hso _ Hheard].
  assert (Ff : find_id (n_peers n) (p_id p) = Some p) by (rewrite E; apply find_mid; exact Ho).
  assert (Fm : find_id (n_peers (maint n)) (p_id p) = Some p) by (rewrite (proj1 (maint_same n)); exact Ff).
  assert (Hproto : forall src, (src = Some (p_id p) \/ (src = None /\ (exists k, sk = SBound k) /\ matches_address p ra = true)) ->
    does (proto_handshake P sk la ra src w) n Q).
  { intros src Hsrc. unfold proto_handshake, maintenance. apply does_bnd. apply does_modn. fold (maint n). rewrite Hw. apply does_bnd.
    unfold match_sender_key. apply does_bnd. destruct sk as [k|o i].
    - apply does_ret. apply does_bnd. apply does_gets. rewrite (proj1 (maint_same n)), E. destruct Hsrc as [-> | (-> & _ & Hm)].
      + apply does_bnd. exists p, (maint n). split; [unfold rd; rewrite Fm; reflexivity|]. destruct (bytes_eqb_spec (p_key p) (p_key p)) as [_|X]; [|contradiction].
        apply does_ret. exact H.
      + apply does_ret. rewrite find_key_mid; [exact H | | exact Hst | exact Hm]. intros q Hq. destruct (Hr q Hq) as (X & _ & Y). split; assumption.
    - destruct Hsrc as [-> | (_ & (k & X) & _)]; [|discriminate]. destruct Hu as [-> Hu]. rewrite N.eqb_refl. apply does_ret. apply does_bnd. apply does_gets.
      apply does_bnd. exists p, (maint n). split; [unfold rd; rewrite Fm; reflexivity|]. destruct (bytes_eqb_spec (p_key p) (p_key p)) as [_|X]; [|contradiction].
      apply does_ret. exact H. }
  assert (Hrecv : does (receive P sk la ra d) n Q).
  { unfold receive. apply does_bnd. apply does_gets. apply does_bnd.
    assert (K : forall src, (src = Some (p_id p) \/ (src = None /\ (exists k, sk = SBound k) /\ matches_address p ra = true /\ (n_floating n || allow_verify P)%bool = true)) ->
      does (let cls := classify d in
      can <- match src with
             | None => ret false
             | Some pid => p <- rd pid ;; ret (is_established p && addr_eqb (p_laddr p) (Some la))%bool
             end ;;
      floating <- gets n_floating ;;
      match src, cls, can with
      | Some pid, PData pkt _, true => handle_recv P pid (slice pkt 2 6)
      | _, _, _ =>
          if (match src with None => negb (floating || allow_verify P) | Some _ => false end)%bool then ret tt
          else match cls with
          | PHandshake pkt ctl =>
              o <- lift (handshake_handle (c_hs P) pkt ctl) ;;
              match o with
              | HIgnore => ret tt
              | HError _ _ _ => send_error sk ra src
              | HProtocol h => w <- lift (view pkt h) ;; proto_handshake P sk la ra src w
              end
          | PData _ _ =>
              backoff <- flip ;;
              when (negb backoff) (handshake_init (Some sk) (Some ra) None)
          | PInvalid => ret tt
          end
      end) n Q).
    { intros src Hsrc. cbv zeta. rewrite Hc. apply does_bnd.
      assert (X : exists can, does (match src with None => ret false | Some pid => p <- rd pid ;; ret (is_established p && addr_eqb (p_laddr p) (Some la))%bool end) n (fun c m => c = can /\ m = n)).
      { destruct Hsrc as [-> | (-> & _)].
        - eexists. apply does_bnd. exists p, n. split; [unfold rd; rewrite Ff; reflexivity|]. apply does_ret. split; reflexivity.
        - eexists. apply does_ret. split; reflexivity. }
      destruct X as (can & X). eapply does_mono; [exact X|]. intros c m [-> ->]. apply does_bnd. apply does_gets.
      assert (Y : does (o <- lift (handshake_handle (c_hs P) pkt true) ;; match o with HIgnore => ret tt | HError _ _ _ => send_error sk ra src
        | HProtocol h => w <- lift (view pkt h) ;; proto_handshake P sk la ra src w end) n Q).
      { apply does_bnd. eapply does_lift; [exact Hh|]. apply does_bnd. eapply does_lift; [exact Hv|]. apply Hproto. destruct Hsrc as [Z | (Z1 & Z2 & Z3 & _)]; auto. }
      destruct Hsrc as [-> | (-> & _ & _ & Z)]; [exact Y|]. rewrite Z. cbn [negb]. exact Y. }
    destruct sk as [k|o i].
    - apply does_ret. rewrite E. rewrite lookup_mid by (intros q Hq; apply (Hr q Hq)). destruct (addr_eqb (p_addr p) (Some ra)) eqn:Ea; [exact (K (Some (p_id p)) (or_introl eq_refl))|].
      refine (K None _). right. destruct Hheard as [X | (X & Y & Z)]; [rewrite X, addr_eqb_same in Ea; discriminate|]. split; [reflexivity|]. split; [exact X|]. split; assumption.
    - destruct Hu as [-> Hu]. apply does_bnd. exists p, n. split; [unfold rd; rewrite Ff; reflexivity|]. apply does_ret.
      destruct Hheard as [X | ((k & X) & _)]; [|discriminate]. rewrite X, addr_eqb_same. exact (K (Some (p_id p)) (or_introl eq_refl)). }
  unfold handle. apply does_bnd. apply does_gets. destruct sk as [k|o i]; [exact Hrecv|]. destruct Hu as [-> Hu].
  unfold sock_alive. rewrite Ff, Hu. cbn [sock_eqb]. rewrite !N.eqb_refl. exact Hrecv.
Qed.

(** ** The checks before the types of packets are told apart *)
Lemma may_connect_welcome : forall P n now p, welcome P n now p -> may_connect P (n_peers n) p = true.
Proof.
  intros P n now p [H _]. unfold may_connect, is_established. destruct H as [-> | H]; [reflexivity|]. destruct (p_state p); try reflexivity;
    apply forallb_forall; intros g Hg; destruct (c_limit P g) as [m|] eqn:El; try reflexivity; specialize (H g m Hg El); rewrite connected_count in H; apply Nat.ltb_lt; exact H.
Qed.

Lemma from_passes : forall P n l1 l2 p sk la ra w hk (Q : unit -> node -> Prop), situation P n l1 l2 p sk ra -> welcome P n (n_now n) p ->
  (w_mtu w = None \/ w_mtu w = Some (peer_mtu P p)) -> w_sender_hk w = Some hk -> (w_recipient w = None \/ w_recipient w = Some (c_own P)) ->
  does (if N.eqb (w_type w) 1 then
          x <- rd (p_id p) ;;
          if (negb (timed_out (n_now n) (p_lhr_to x)) && addr_eqb (Some ra) (p_lhr_addr x))%bool then ret tt
          else
            wr (p_id p) (fun x => set_p_lhr_to (n_now n + MIN_HANDSHAKE_INTERVAL) (set_p_lhr_addr (Some ra) x)) ;;
            respond_handshake P sk ra (p_id p) hk
        else handshake_reply P sk la ra (p_id p) hk w) (maint n) Q ->
  does (handshake_from P sk la ra (p_id p) w) (maint n) Q.
Proof.
  intros P n l1 l2 p sk la ra w hk Q S Hwel Hmtu Hhk Hrec H. destruct (maint_same n) as (M1 & M2 & M3 & M4 & M5).
  assert (Fm : find_id (n_peers (maint n)) (p_id p) = Some p) by (rewrite M1, (s_split _ _ _ _ _ _ _ S); apply find_mid; apply S).
  unfold handshake_from. apply does_bnd. exists p, (maint n). split; [unfold rd; rewrite Fm; reflexivity|].
  assert (E1 : match w_mtu w with Some m => negb (N.eqb m (peer_mtu P p)) | None => false end = false) by (destruct Hmtu as [-> | ->]; [reflexivity | rewrite N.eqb_refl; reflexivity]).
  rewrite E1, Hhk. apply does_bnd. apply does_gets. apply does_bnd. apply does_gets. rewrite M1, M2, (may_connect_welcome _ _ _ _ Hwel). cbn [negb].
  destruct Hwel as [_ Heh]. unfold timed_out at 1. destruct (Z.leb_spec (p_eh_to p) (n_now n)) as [_|X]; [|lia]. cbn [negb].
  assert (E2 : match w_recipient w with Some rk => negb (bytes_eqb (c_own P) rk) | None => false end = false).
  { destruct Hrec as [-> | ->]; [reflexivity|]. destruct (bytes_eqb_spec (c_own P) (c_own P)) as [_|X]; [reflexivity | contradiction]. }
  rewrite E2. unfold is_dynamic. rewrite (s_static _ _ _ _ _ _ _ S). apply does_bnd. apply does_ret. cbn [negb]. exact H.
Qed.

Lemma start_stt : forall P n l1 l2 p sk ra, situation P n l1 l2 p sk ra -> stt (maint n) l1 l2 p [] (n_orc n) (maint n).
Proof.
  intros P n l1 l2 p sk ra S. destruct (maint_same n) as (M1 & M2 & M3 & M4 & M5). constructor; try reflexivity; [rewrite M1; apply S | exact M4].
Qed.

(** ** Computing the shared key *)
Lemma does_update : forall P n0 l1 l2 pid serial hk sigma key p l orc n (Q : option hcache -> node -> Prop), others l1 l2 pid -> stt n0 l1 l2 p l orc n -> p_id p = pid ->
  (forall c, p_cache p = Some c -> c_shared P false (hc_serial c) (p_key p) (hc_hk c) = Some (hc_sigma c, hc_key c)) ->
  c_shared P false serial (p_key p) hk = Some (sigma, key) ->
  (forall n' c p', stt n0 l1 l2 p' l orc n' -> p' = set_p_cache (p_cache p') p -> hc_sigma c = sigma -> hc_key c = key -> Q (Some c) n') ->
  does (update_shared P pid serial hk) n Q.
Proof.
  intros P n0 l1 l2 pid serial hk sigma key p l orc n Q Ho S E Hc Hs H. unfold update_shared. apply does_bnd. eapply does_rd; [exact Ho | exact S | exact E|]. cbv zeta.
  assert (K : does (match c_shared P false serial (p_key p) hk with None => ret None | Some (sigma, key) => let c := mk_hcache serial hk sigma key in wr pid (set_p_cache (Some c)) ;; ret (Some c) end) n Q).
  { rewrite Hs. cbv zeta. apply does_bnd. eapply does_wr; [exact Ho | exact S | exact E|]. intros n1 S1. apply does_ret. eapply H; [exact S1 | reflexivity .. ]. }
  destruct (p_cache p) as [c|] eqn:Ec; [|exact K]. destruct (N.eqb (hc_serial c) serial && bytes_eqb (hc_hk c) hk)%bool eqn:Eq; [|exact K].
  apply andb_prop in Eq. destruct Eq as [E1 E2]. apply N.eqb_eq in E1. destruct (bytes_eqb_spec (hc_hk c) hk) as [E3|]; [|discriminate].
  specialize (Hc c eq_refl). rewrite E1, E3, Hs in Hc. injection Hc as -> ->. apply does_ret. eapply H; [exact S | destruct p; cbn in *; subst; reflexivity | reflexivity ..].
Qed.

(** ** The initial handshake is answered *)
Lemma answer_does : forall P n l1 l2 p sk la ra d pkt h w hk sigma key (Q : unit -> node -> Prop), situation P n l1 l2 p sk ra -> welcome P n (n_now n) p ->
  classify d = PHandshake pkt true -> handshake_handle (c_hs P) pkt true = Ok (HProtocol h) -> view pkt h = Ok w -> w_sender w = Some (p_key p) ->
  (w_mtu w = None \/ w_mtu w = Some (peer_mtu P p)) -> w_sender_hk w = Some hk -> (w_recipient w = None \/ w_recipient w = Some (c_own P)) -> w_type w = 1%N ->
  (p_lhr_to p <= n_now n \/ p_lhr_addr p <> Some ra) ->
  c_shared P false (k_serial (n_cur (maint n))) (p_key p) hk = Some (sigma, key) ->
  (forall n' p' orc', stt (maint n) l1 l2 p' [(n_now n, OResp (p_id p) ra (k_serial (n_cur (maint n))) (mk_msg hk key (wire_resp P p (k_serial (n_cur (maint n))) hk key)))] orc' n' -> core (set_p_cache None p') = core (set_p_cache None p) -> Q tt n') ->
  does (handle P (EvRecv sk la ra d)) n Q.
Proof.
  intros P n l1 l2 p sk la ra d pkt h w hk sigma key Q S Hwel Hc Hh Hv Hw Hmtu Hhk Hrec Hty Hlim Hsh H.
  eapply heard; try eassumption. eapply from_passes; try eassumption. rewrite Hty, N.eqb_refl. pose proof (start_stt _ _ _ _ _ _ _ S) as S0. pose proof (s_others _ _ _ _ _ _ _ S) as Ho.
  apply does_bnd. eapply does_rd; [exact Ho | exact S0 | reflexivity|].
  assert (E1 : (negb (timed_out (n_now n) (p_lhr_to p)) && addr_eqb (Some ra) (p_lhr_addr p))%bool = false).
  { unfold timed_out. destruct (Z.leb_spec (p_lhr_to p) (n_now n)) as [_|X]; [reflexivity|]. cbn [negb andb]. destruct Hlim as [Y|Y]; [lia|].
    unfold addr_eqb. destruct (p_lhr_addr p) as [x|]; [|reflexivity]. apply N.eqb_neq. intros ->. apply Y. reflexivity. }
  rewrite E1. apply does_bnd. eapply does_wr; [exact Ho | exact S0 | reflexivity|]. intros n1 S1. unfold respond_handshake. apply does_bnd. apply does_gets.
  rewrite (st_cur _ _ _ _ _ _ _ S1). apply does_bnd. eapply does_update; [exact Ho | exact S1 | reflexivity | exact (s_cache _ _ _ _ _ _ _ S) | exact Hsh|].
  intros n2 c p2 S2 Ep _ Ekey. apply does_bnd. eapply does_rd; [exact Ho | exact S2 | rewrite Ep; reflexivity|].
  replace (wire_resp P p2 (k_serial (n_cur (maint n))) hk (hc_key c)) with (wire_resp P p (k_serial (n_cur (maint n))) hk key) by (rewrite Ekey, Ep; reflexivity). rewrite Ekey. eapply does_send; [exact Ho | exact S2 | rewrite Ep; reflexivity | |].
  { apply usable_send; [rewrite Ep; reflexivity|]. pose proof (s_usable _ _ _ _ _ _ _ S) as U. unfold usable in *. destruct sk; [exact Logic.I|]. split; [exact (proj1 U)|]. rewrite Ep. exact (proj2 U). }
  intros n3 p3 orc3 S3 C3. rewrite (proj1 (proj2 (maint_same n))) in S3. eapply H; [exact S3|]. unfold core in *. rewrite Ep in C3. cbn in C3 |- *. congruence.
Qed.

(** ** The ephemeral key a reply is meant for *)
Lemma key_found : forall P n p s, distinct_key P n s -> holds_key n (n_now n) p s ->
  exists k, (if key_matches P (n_now n) (n_cur (maint n)) (c_eph P s) then Some (n_cur (maint n))
             else if key_matches P (n_now n) (n_prev (maint n)) (c_eph P s) then Some (n_prev (maint n)) else None) = Some k /\ k_serial k = s.
Proof.
  intros P n p s Hinj [_ Hk].
  assert (Y : forall k, k_serial k = s -> n_now n < k_valid_till k -> key_matches P (n_now n) k (c_eph P s) = true).
  { intros k <- Hv. unfold key_matches, timed_out. destruct (Z.leb_spec (k_valid_till k) (n_now n)) as [X|_]; [lia|].
    destruct (bytes_eqb_spec (c_eph P (k_serial k)) (c_eph P (k_serial k))) as [_|X]; [reflexivity | contradiction]. }
  assert (N : forall k, k = n_cur (maint n) \/ k = n_prev (maint n) -> key_matches P (n_now n) k (c_eph P s) = true -> k_serial k = s).
  { intros k Hk' H. unfold key_matches in H. apply andb_prop in H. destruct H as [_ H]. destruct (bytes_eqb_spec (c_eph P (k_serial k)) (c_eph P s)) as [E|]; [|discriminate]. apply Hinj; [|exact E].
    unfold maint in Hk'. destruct (timed_out _ _); cbn [n_cur n_prev set_n_cur set_n_prev] in Hk'; destruct Hk' as [-> | ->]; cbn [k_serial]; auto. }
  destruct (key_matches P (n_now n) (n_cur (maint n)) (c_eph P s)) eqn:E; [exists (n_cur (maint n)); split; [reflexivity | exact (N _ (or_introl eq_refl) E)]|].
  assert (Z : key_matches P (n_now n) (n_prev (maint n)) (c_eph P s) = true).
  { unfold maint in *. unfold timed_out in E |- *. destruct (Z.leb_spec (k_preferred_till (n_cur n)) (n_now n)) as [X|X]; cbn [n_prev n_cur set_n_cur set_n_prev] in *.
    - destruct Hk as [[E1 E2] | (_ & _ & E3)]; [apply Y; congruence | lia].
    - destruct Hk as [[E1 E2] | (E1 & E2 & _)]; [rewrite Y in E by congruence; discriminate | apply Y; congruence]. }
  rewrite Z. exists (n_prev (maint n)). split; [reflexivity | exact (N _ (or_intror eq_refl) Z)].
Qed.

Lemma bytes_eqb_same : forall a, bytes_eqb a a = true.
Proof. intros a. destruct (bytes_eqb_spec a a) as [_|X]; [reflexivity | contradiction]. Qed.

(** ** The response is accepted and finished *)
Lemma reply_does : forall P n l1 l2 p sk la ra d pkt h w hk s sigma key tlv m (initiator : bool) (Q : unit -> node -> Prop),
  situation P n l1 l2 p sk ra -> welcome P n (n_now n) p -> holds_key n (n_now n) p s -> distinct_key P n s ->
  nth 0 (n_orc n) 0%N = 0%N -> (p_iface p = true \/ nth 2 (n_orc n) 0%N <> 0%N) ->
  classify d = PHandshake pkt true -> handshake_handle (c_hs P) pkt true = Ok (HProtocol h) -> view pkt h = Ok w -> w_sender w = Some (p_key p) ->
  (w_mtu w = None \/ w_mtu w = Some (peer_mtu P p)) -> w_sender_hk w = Some hk -> w_recipient w = Some (c_own P) -> w_flags w = 1%N ->
  w_recipient_hk w = Some (c_eph P s) -> w_mac w = Some (c_mac P key tlv, tlv) -> w_type w = (if initiator then 2 else 3)%N ->
  c_shared P initiator s (p_key p) hk = Some (sigma, key) ->
  (if initiator then get_method_by_name_list (c_methods P (p_group p)) (w_method_list w) else get_method_by_name (c_methods P (p_group p)) (w_method w)) = Some m ->
  (forall n' p' l' orc', stt (maint n) l1 l2 p' l' orc' n' -> made (n_now n) p p' sk ra initiator s hk key sigma m l' ->
     (initiator = true -> In (n_now n, OFin (p_id p) ra (mk_msg hk key (wire_fin P p s hk key m))) l') -> Q tt n') ->
  does (handle P (EvRecv sk la ra d)) n Q.
Proof.
  intros P n l1 l2 p sk la ra d pkt h w hk s sigma key tlv m initiator Q S Hwel Hk Hinj Ho1 Ho2 Hc Hh Hv Hw Hmtu Hhk Hrec Hfl Hrh Hmac Hty Hsh Hm H.
  eapply heard; try eassumption. eapply from_passes; try eassumption; [right; exact Hrec|].
  assert (Ety : N.eqb (w_type w) 1 = false) by (rewrite Hty; destruct initiator; reflexivity). rewrite Ety.
  pose proof (start_stt _ _ _ _ _ _ _ S) as S0. pose proof (s_others _ _ _ _ _ _ _ S) as Ho. pose proof (proj1 (proj2 (maint_same n))) as Mn.
  assert (Hcl : claim_scan (n_peers (maint n)) (p_id p) ra true = ClFree).
  { rewrite (proj1 (maint_same n)), (s_split _ _ _ _ _ _ _ S). apply claim_mid; [exact Ho|]. intros q Hq. apply (s_rest _ _ _ _ _ _ _ S q Hq). }
  unfold handshake_reply. rewrite Hrec, Hrh, Hmac. apply does_bnd. apply does_gets. apply does_bnd. apply does_gets. apply does_bnd. apply does_gets. rewrite Mn.
  destruct (key_found P n p s Hinj Hk) as (k & Ek & Es). rewrite Ek, Es. destruct Hk as [Hser _].
  destruct initiator; rewrite Hty; cbn [N.eqb Pos.eqb].
  - unfold finish_handshake. apply does_bnd. eapply does_rd; [exact Ho | exact S0 | reflexivity|]. rewrite Hm, Hsh, bytes_eqb_same. cbn [negb]. rewrite Hfl.
    change (compat_of 1) with false. apply does_bnd. eapply does_establish with (2 := S0);
      [exact Ho | reflexivity | exact (s_owner _ _ _ _ _ _ _ S) | exact (s_usable _ _ _ _ _ _ _ S) | exact Hcl | exact Hser | exact Ho1 | exact Ho2|].
    rewrite Mn. intros n1 p1 l' orc1 S1 Hmade. rewrite app_nil_r in S1. cbn [when]. apply does_bnd. eapply does_rd; [exact Ho | exact S1 | exact (md_id _ _ _ _ _ _ _ _ _ _ _ _ Hmade)|].
    replace (wire_fin P p1 s hk key m) with (wire_fin P p s hk key m)
      by (destruct Hmade as [_ M2 _ _ M5 _ _ _ _ _ _]; unfold wire_fin, peer_mtu; rewrite M2, M5; reflexivity).
    eapply does_send; [exact Ho | exact S1 | exact (md_id _ _ _ _ _ _ _ _ _ _ _ _ Hmade) | |].
    { apply usable_send; [exact (md_id _ _ _ _ _ _ _ _ _ _ _ _ Hmade)|]. exact (md_sock _ _ _ _ _ _ _ _ _ _ _ _ Hmade). }
    intros n2 p2 orc2 S2 C2. rewrite Mn in S2. eapply H; [exact S2 | | intros _; left; reflexivity].
    pose proof (core_proj _ _ C2) as (T1 & T2 & T3 & T4 & T5 & T6 & T7 & T8 & T9 & T10).
    destruct Hmade as [D1 D2 D3 D4 D5 D6 D7 D8 D9 (x & D10 & D11 & D12 & D13) D14]. constructor; try congruence.
    + unfold usable in *. destruct sk; [exact Logic.I|]. split; [exact (proj1 D9)|]. rewrite T6. exact (proj2 D9).
    + exists x. split; [congruence|]. split; [exact D11|]. split; [exact D12|]. right. exact D13.
    + intros X. right. exact (D14 X).
  - unfold handle_finish_handshake. apply does_bnd. eapply does_rd; [exact Ho | exact S0 | reflexivity|]. rewrite Hm. apply does_bnd.
    eapply does_update; [exact Ho | exact S0 | reflexivity | exact (s_cache _ _ _ _ _ _ _ S) | exact Hsh|]. intros n1 c p1 S1 Ep Esg Eky. rewrite Eky, bytes_eqb_same. cbn [negb]. rewrite Hfl.
    change (compat_of 1) with false. apply does_bnd.
    assert (Hcl1 : claim_scan (n_peers n1) (p_id p) ra true = ClFree).
    { rewrite (st_peers _ _ _ _ _ _ _ S1). replace (p_id p) with (p_id p1) by (rewrite Ep; reflexivity). apply claim_mid; [rewrite Ep; exact Ho|]. intros q Hq. apply (s_rest _ _ _ _ _ _ _ S q Hq). }
    pose proof (s_usable _ _ _ _ _ _ _ S) as U.
    eapply does_establish with (2 := S1); [exact Ho | rewrite Ep; reflexivity | rewrite Ep; exact (s_owner _ _ _ _ _ _ _ S) | | exact Hcl1 | rewrite Ep; exact Hser | exact Ho1 | rewrite Ep; exact Ho2 |].
    { unfold usable in *. destruct sk; [exact Logic.I|]. split; [exact (proj1 U)|]. rewrite Ep. exact (proj2 U). }
    rewrite Mn. intros n2 p2 l' orc2 S2 Hmade. rewrite app_nil_r in S2. eapply does_wr; [exact Ho | exact S2 | rewrite (md_id _ _ _ _ _ _ _ _ _ _ _ _ Hmade), Ep; reflexivity|].
    intros n3 S3. eapply H; [exact S3 | | discriminate]. rewrite Esg in Hmade.
    assert (F : p_id p1 = p_id p /\ p_key p1 = p_key p /\ p_group p1 = p_group p /\ p_conf p1 = p_conf p /\ p_mtu p1 = p_mtu p /\ p_state p1 = p_state p) by (rewrite Ep; repeat split).
    destruct F as (F1 & F2 & F3 & F4 & F5 & F6).
    destruct Hmade as [D1 D2 D3 D4 D5 D6 D7 D8 D9 (x & D10 & D11 & D12 & D13) D14]. rewrite F1, F2, F3, F4, F5, F6 in *. constructor; cbn; try congruence.
    + unfold usable in *. destruct sk; [exact Logic.I|]. exact D9.
    + exists x. split; [exact D10|]. split; [exact D11|]. split; [exact D12|]. exact D13.
    + exact D14.
Qed.

(** ** Reachable nodes *)
Lemma cur_times : forall P n, reachable P n -> k_preferred_till (n_cur n) <= n_now n \/ k_valid_till (n_cur n) = k_preferred_till (n_cur n) + 15000.
Proof.
  intros P n R. refine (reachable_ind P (fun n => k_preferred_till (n_cur n) <= n_now n \/ k_valid_till (n_cur n) = k_preferred_till (n_cur n) + 15000) _ _ _ n R).
  - intros now orc. left. cbn. lia.
  - intros t m _ Ht H. cbn [n_cur n_now set_n_now]. lia.
  - intros ev fl a b H I K. rewrite (nstep_now _ _ _ _ _ H). destruct (nstep_keys _ _ _ _ _ H) as [(-> & _) | (-> & _)]; [exact K|]. right. cbn. lia.
Qed.
Lemma maint_valid : forall n, (k_preferred_till (n_cur n) <= n_now n \/ k_valid_till (n_cur n) = k_preferred_till (n_cur n) + 15000) ->
  n_now n + 15000 < k_valid_till (n_cur (maint n)).
Proof.
  intros n H. unfold maint, timed_out. destruct (Z.leb_spec (k_preferred_till (n_cur n)) (n_now n)) as [X|X]; cbn; lia.
Qed.
Lemma reachable_inv0 : forall P n dt, reachable P n -> inv0 P (tick dt n).
Proof. intros P n dt R. apply i_0. apply inv_tick. exact (reachable_inv P n R). Qed.
Lemma does_handles : forall P n dt ev (Q : unit -> node -> Prop), does (handle P ev) (tick dt n) Q -> exists n', handles P n dt ev n' /\ Q tt n'.
Proof. intros P n dt ev Q ([] & n' & H1 & H2). exists n'. split; [exact H1 | exact H2]. Qed.
Lemma hears_tick : forall P n dt p sk ra, hears P n p sk ra -> hears P (tick dt n) p sk ra. Proof. intros P n dt p sk ra H. exact H. Qed.

Lemma connected_mid : forall n n' l1 l2 a a' g, n_peers n = l1 ++ a :: l2 -> n_peers n' = l1 ++ a' :: l2 -> p_state a' = p_state a -> p_group a' = p_group a ->
  length (connected n' g) = length (connected n g).
Proof.
  intros n n' l1 l2 a a' g E E' Es Eg. unfold connected. rewrite E, E', !filter_app, !app_length. cbn [filter]. rewrite Es, Eg.
  destruct (_ && _)%bool; reflexivity.
Qed.

(** ** The three claims *)
Lemma answered : forall P Q n dt a sk la ra recipient s d, partners P Q -> reachable Q n -> hears Q n a sk ra -> welcome Q n (n_now n + Z.of_N dt) a ->
  p_key a = c_own P -> (recipient = None \/ recipient = Some (c_own Q)) -> wire_init P recipient s = Ok d ->
  (p_lhr_to a <= n_now n + Z.of_N dt \/ p_lhr_addr a <> Some ra) ->
  exists n' a' t sigma key, handles Q n dt (EvRecv sk la ra d) n' /\ n_now n' = n_now n + Z.of_N dt /\
    c_shared Q false t (c_own P) (c_eph P s) = Some (sigma, key) /\
    newly n n' (n_now n') (OResp (p_id a) ra t (mk_msg (c_eph P s) key (wire_resp Q a t (c_eph P s) key))) /\
    t = k_serial (n_cur n') /\ n_now n' + 15000 < k_valid_till (n_cur n') /\
    unconnected a a' /\ hears Q n' a' sk ra /\ welcome Q n' (n_now n') a'.
Proof.
  intros P Q n dt a sk la ra recipient s d T R Hh Hw Hk Hrec Hd Hlim.
  destruct (hears_situation Q (tick dt n) a sk ra (reachable_inv0 Q n dt R) (hears_tick _ _ dt _ _ _ Hh)) as (l1 & l2 & S).
  destruct (init_seen (c_hs P) (c_hs Q) (pt_buf_P _ _ T) (pt_protocol _ _ T) (pt_name _ _ T) (pt_mode _ _ T) (pt_mode_byte _ _ T) (c_own P) recipient (c_eph P s) d) as (pkt & h & V1 & V2 & V3).
  { apply T. } { intros k ->. destruct Hrec as [X|X]; [discriminate|]. injection X as ->. apply T. } { apply T. } { exact Hd. }
  destruct (pt_exchange _ _ T s (k_serial (n_cur (maint (tick dt n))))) as (sigma & key & _ & Ex). rewrite <- Hk in Ex.
  assert (D : does (handle Q (EvRecv sk la ra d)) (tick dt n) (fun _ n' => exists p' orc',
    stt (maint (tick dt n)) l1 l2 p' [(n_now (tick dt n), OResp (p_id a) ra (k_serial (n_cur (maint (tick dt n)))) (mk_msg (c_eph P s) key (wire_resp Q a (k_serial (n_cur (maint (tick dt n)))) (c_eph P s) key)))] orc' n' /\ core (set_p_cache None p') = core (set_p_cache None a))).
  { eapply answer_does; try eassumption; cbn [w_sender w_mtu w_sender_hk w_recipient w_type];
      try first [reflexivity | exact Hrec | exact Hlim | exact Ex | left; reflexivity | rewrite Hk; reflexivity].
    intros n' p' orc' S' C'. exists p', orc'. split; assumption. }
  apply does_handles in D. destruct D as (n' & Hn & p' & orc' & S' & C'). destruct S' as [S1 S2 S3 S4 S5 S6 S7]. rewrite (proj1 (proj2 (maint_same (tick dt n)))) in S2.
  assert (C : unconnected a p' /\ p_sock p' = p_sock a /\ p_addr p' = p_addr a /\ p_remotes p' = p_remotes a /\ p_floating p' = p_floating a /\ p_eh_to p' = p_eh_to a).
  { clear - C'. unfold core in C'. cbn in C'. unfold unconnected. repeat split; congruence. }
  destruct C as (U & C1 & C2 & C3 & C4 & C5). exists n', p', (k_serial (n_cur (maint (tick dt n)))), sigma, key. split; [exact Hn|]. split; [exact S2|]. split; [rewrite <- Hk; exact Ex|]. split.
  { eexists. split; [rewrite S7; f_equal; exact (proj2 (proj2 (proj2 (proj2 (maint_same (tick dt n))))))|]. left. rewrite S2. reflexivity. }
  split; [rewrite S3; reflexivity|]. split.
  { rewrite S2, S3. apply maint_valid. destruct (cur_times Q n R) as [X|X]; [left | right; exact X]. cbn [n_cur n_now tick set_n_now]. lia. }
  split; [exact U|]. destruct U as (U1 & U2 & U3 & U4 & U5 & U6 & U7 & U8). destruct Hh as (H1 & H2 & H3 & H4). split.
  - split; [rewrite S1; apply in_or_app; right; left; reflexivity|]. split; [congruence|]. split.
    + intros q Hq Hid. apply H3; [|congruence]. assert (E : n_peers n = l1 ++ a :: l2) by exact (s_split _ _ _ _ _ _ _ S). rewrite E. rewrite S1 in Hq.
      apply in_app_or in Hq. destruct Hq as [Hq | [Hq | Hq]]; [apply in_or_app; left; exact Hq | subst q; congruence | apply in_or_app; right; right; exact Hq].
    + rewrite C1, C2, C3, C4. rewrite S5, (proj1 (proj2 (proj2 (maint_same (tick dt n))))). exact H4.
  - destruct Hw as [W1 W2]. rewrite S2. split; [|rewrite C5; exact W2]. rewrite U6. destruct W1 as [W1|W1]; [left; exact W1|]. right. intros g m Hg Hm.
    rewrite (connected_mid n n' l1 l2 a p' g (s_split _ _ _ _ _ _ _ S) S1 U6 U3). rewrite U3 in Hg. exact (W1 g m Hg Hm).
Qed.

Lemma made_connected : forall P n dt a p' l' orc' n' l1 l2 sk ra initiator s hk key sigma m, p_conf a = CStatic ->
  stt (maint (tick dt n)) l1 l2 p' l' orc' n' -> made (n_now (tick dt n)) a p' sk ra initiator s hk key sigma m l' -> reachable P n ->
  n_now n' = n_now n + Z.of_N dt /\ connected_by n n' a ra initiator s hk key sigma m /\ (forall o, In (n_now (tick dt n), o) l' -> newly n n' (n_now n') o).
Proof.
  intros P n dt a p' l' orc' n' l1 l2 sk ra initiator s hk key sigma m Hc [S1 S2 S3 S4 S5 S6 S7] [D1 D2 D3 D4 D5 D6 D7 D8 D9 (x & D10 & D11 & D12 & D13) D14] _.
  rewrite (proj1 (proj2 (maint_same (tick dt n)))) in S2. rewrite (proj2 (proj2 (proj2 (proj2 (maint_same (tick dt n)))))) in S7.
  assert (N : forall o, In (n_now (tick dt n), o) l' -> newly n n' (n_now n') o) by (intros o Ho; exists l'; split; [exact S7 | rewrite S2; exact Ho]).
  split; [exact S2|]. split; [|exact N]. exists p', x, (ss_id x). split; [rewrite S1; apply in_or_app; right; left; reflexivity|].
  rewrite <- Hc, S2. repeat (split; [first [assumption | reflexivity]|]). split; [rewrite <- S2; apply N; exact D13|]. intros X. rewrite <- S2. apply N. exact (D14 X).
Qed.

Lemma find_better : forall (f : bytes -> bool) better m worse, (forall y, In y better -> f y = false) -> f m = true -> find f (better ++ m :: worse) = Some m.
Proof.
  intros f better m worse. induction better as [|y l IH]; intros H Hm; cbn [app find]; [rewrite Hm; reflexivity|].
  rewrite (H y (or_introl eq_refl)). apply IH; [|exact Hm]. intros z Hz. apply H. right. exact Hz.
Qed.

Lemma initiator_connects : forall P Q n dt b a sk la ra s t key sigma m d, partners P Q -> compatible P Q b a m -> reachable P n ->
  hears P n b sk ra -> welcome P n (n_now n + Z.of_N dt) b -> holds_key n (n_now n + Z.of_N dt) b s -> distinct_key P n s -> environment_fine n b ->
  c_shared P true s (c_own Q) (c_eph Q t) = Some (sigma, key) -> wire_resp Q a t (c_eph P s) key = Ok d ->
  exists n', handles P n dt (EvRecv sk la ra d) n' /\ n_now n' = n_now n + Z.of_N dt /\
    connected_by n n' b ra true s (c_eph Q t) key sigma m /\ newly n n' (n_now n') (OFin (p_id b) ra (mk_msg (c_eph Q t) key (wire_fin P b s (c_eph Q t) key m))).
Proof.
  intros P Q n dt b a sk la ra s t key sigma m d T (K1 & K2 & K3 & K4 & K5 & better & worse & K6 & K7 & K8) R Hh Hw Hk Hdist [He1 He2] Hs Hd.
  destruct (hears_situation P (tick dt n) b sk ra (reachable_inv0 P n dt R) (hears_tick _ _ dt _ _ _ Hh)) as (l1 & l2 & S).
  assert (B : (hc_mode_id (c_hs Q) < 256)%N) by (rewrite <- (pt_mode _ _ T); apply T).
  assert (Nm : ~ In 0%N (hc_protocol (c_hs Q))) by (rewrite <- (pt_protocol _ _ T); apply T).
  unfold wire_resp in Hd. rewrite K2 in Hd.
  destruct (reply_seen (c_hs Q) (c_hs P) (pt_buf_Q _ _ T) (eq_sym (pt_protocol _ _ T)) Nm (eq_sym (pt_mode _ _ T)) B 2 (peer_mtu Q a) None (c_methods Q (p_group a)) (c_own Q) (c_own P) (c_eph Q t) (c_eph P s) (c_mac Q key) d)
    as (pkt & h & x & V1 & V2 & V3); try (first [exact Hd | apply T | reflexivity | rewrite <- K3; exact K4]).
  { intros y. rewrite <- (pt_mac _ _ T). apply T. }
  assert (D : does (handle P (EvRecv sk la ra d)) (tick dt n) (fun _ n' => exists p' l' orc',
    stt (maint (tick dt n)) l1 l2 p' l' orc' n' /\ made (n_now (tick dt n)) b p' sk ra true s (c_eph Q t) key sigma m l' /\ In (n_now (tick dt n), OFin (p_id b) ra (mk_msg (c_eph Q t) key (wire_fin P b s (c_eph Q t) key m))) l')).
  { eapply reply_does with (initiator := true) (tlv := x); try eassumption; cbn [w_sender w_mtu w_sender_hk w_recipient w_type w_flags w_recipient_hk w_mac w_method w_method_list].
    all: try first [reflexivity | apply T | rewrite K1; reflexivity | rewrite K3; destruct (N.eqb (peer_mtu Q a) 0); [left | right]; reflexivity
      | rewrite (pt_mac _ _ T); reflexivity | rewrite K1; exact Hs].
    - replace (match c_methods Q (p_group a) with [] => None | _ => Some (create_method_list (c_methods Q (p_group a))) end) with (Some (create_method_list (c_methods Q (p_group a)))) by (rewrite K6; destruct better; reflexivity).
      rewrite choose_preferred by exact K5. unfold preferred. rewrite K6. apply find_better; [|apply contains_spec; exact K7].
      intros y Hy. specialize (K8 y Hy). rewrite <- contains_spec in K8. destruct (contains _ y); [exfalso; apply K8; reflexivity | reflexivity].
    - intros n' p' l' orc' S' M' F'. exists p', l', orc'. split; [exact S'|]. split; [exact M' | exact (F' eq_refl)]. }
  apply does_handles in D. destruct D as (n' & Hn & p' & l' & orc' & S' & M' & F'). exists n'. split; [exact Hn|].
  destruct (made_connected _ _ _ _ _ _ _ _ _ _ _ _ _ _ _ _ _ _ (s_static _ _ _ _ _ _ _ S) S' M' R) as (X1 & X2 & X3). split; [exact X1|]. split; [exact X2 | exact (X3 _ F')].
Qed.

Lemma responder_connects : forall P Q n dt b a sk la ra s t key sigma m d, partners P Q -> compatible P Q b a m -> reachable Q n ->
  hears Q n a sk ra -> welcome Q n (n_now n + Z.of_N dt) a -> holds_key n (n_now n + Z.of_N dt) a t -> distinct_key Q n t -> environment_fine n a ->
  c_shared Q false t (c_own P) (c_eph P s) = Some (sigma, key) -> wire_fin P b s (c_eph Q t) key m = Ok d ->
  exists n', handles Q n dt (EvRecv sk la ra d) n' /\ n_now n' = n_now n + Z.of_N dt /\ connected_by n n' a ra false t (c_eph P s) key sigma m.
Proof.
  intros P Q n dt b a sk la ra s t key sigma m d T (K1 & K2 & K3 & K4 & K5 & better & worse & K6 & K7 & K8) R Hh Hw Hk Hdist [He1 He2] Hs Hd.
  destruct (hears_situation Q (tick dt n) a sk ra (reachable_inv0 Q n dt R) (hears_tick _ _ dt _ _ _ Hh)) as (l1 & l2 & S).
  unfold wire_fin in Hd. rewrite K1 in Hd.
  destruct (reply_seen (c_hs P) (c_hs Q) (pt_buf_P _ _ T) (pt_protocol _ _ T) (pt_name _ _ T) (pt_mode _ _ T) (pt_mode_byte _ _ T) 3 (peer_mtu P b) (Some m) [] (c_own P) (c_own Q) (c_eph P s) (c_eph Q t) (c_mac P key) d)
    as (pkt & h & x & V1 & V2 & V3); try (first [exact Hd | apply T | reflexivity | exact K4]).
  assert (Hin : In m (c_methods Q (p_group a))) by (rewrite K6; apply in_or_app; right; left; reflexivity).
  assert (D : does (handle Q (EvRecv sk la ra d)) (tick dt n) (fun _ n' => exists p' l' orc',
    stt (maint (tick dt n)) l1 l2 p' l' orc' n' /\ made (n_now (tick dt n)) a p' sk ra false t (c_eph P s) key sigma m l')).
  { eapply reply_does with (initiator := false) (tlv := x); try eassumption; cbn [w_sender w_mtu w_sender_hk w_recipient w_type w_flags w_recipient_hk w_mac w_method w_method_list].
    all: try first [reflexivity | apply T | rewrite K2; reflexivity | rewrite <- K3; destruct (N.eqb (peer_mtu P b) 0); [left | right]; reflexivity
      | rewrite (pt_mac _ _ T); reflexivity | rewrite K2; exact Hs].
    - rewrite by_name by (rewrite Forall_forall in K5; apply K5; exact Hin). apply contains_spec in Hin. rewrite Hin. reflexivity.
    - intros n' p' l' orc' S' M' _. exists p', l', orc'. split; [exact S' | exact M']. }
  apply does_handles in D. destruct D as (n' & Hn & p' & l' & orc' & S' & M'). exists n'. split; [exact Hn|].
  destruct (made_connected _ _ _ _ _ _ _ _ _ _ _ _ _ _ _ _ _ _ (s_static _ _ _ _ _ _ _ S) S' M' R) as (X1 & X2 & _). split; [exact X1 | exact X2].
Qed.

(** ** All together *)
Lemma handshake_connects : forall P Q, partners P Q -> forall nA nB b a m s skA laA raA skB laB raB dt1 dt2 dt3 recipient d1,
  reachable P nA -> reachable Q nB -> compatible P Q b a m ->
  hears P nA b skA raA -> hears Q nB a skB raB ->
  welcome Q nB (n_now nB + Z.of_N dt1) a -> welcome P nA (n_now nA + Z.of_N dt2) b ->
  holds_key nA (n_now nA + Z.of_N dt2) b s -> distinct_key P nA s -> environment_fine nA b ->
  (p_lhr_to a <= n_now nB + Z.of_N dt1 \/ p_lhr_addr a <> Some raB) -> (dt3 <= 15000)%N ->
  (recipient = None \/ recipient = Some (c_own Q)) -> wire_init P recipient s = Ok d1 ->
  exists nB1 a1 t key sigma r2,
    handles Q nB dt1 (EvRecv skB laB raB d1) nB1 /\ newly nB nB1 (n_now nB1) (OResp (p_id a) raB t (mk_msg (c_eph P s) key r2)) /\ unconnected a a1 /\
    forall d2, r2 = Ok d2 ->
    exists nA1 r3,
      handles P nA dt2 (EvRecv skA laA raA d2) nA1 /\ newly nA nA1 (n_now nA1) (OFin (p_id b) raA (mk_msg (c_eph Q t) key r3)) /\
      connected_by nA nA1 b raA true s (c_eph Q t) key sigma m /\
      forall d3, r3 = Ok d3 -> (p_serial a < t)%N -> distinct_key Q nB1 t -> environment_fine nB1 a ->
      exists nB2, handles Q nB1 dt3 (EvRecv skB laB raB d3) nB2 /\ connected_by nB1 nB2 a1 raB false t (c_eph P s) key sigma m.
Proof.
  intros P Q T nA nB b a m s skA laA raA skB laB raB dt1 dt2 dt3 recipient d1 RA RB C HA HB WB WA KA DA EA Hlim Hdt Hrec Hd1.
  destruct (answered P Q nB dt1 a skB laB raB recipient s d1 T RB HB WB (proj1 (proj2 C)) Hrec Hd1 Hlim) as (nB1 & a1 & t & sigma & key & Hn1 & Ht1 & X2 & Ho1 & Es & Ev & U & HB1 & WB1).
  assert (X1 : c_shared P true s (c_own Q) (c_eph Q t) = Some (sigma, key)) by (destruct (pt_exchange _ _ T s t) as (sg & k' & Y1 & Y2); congruence).
  exists nB1, a1, t, key, sigma, (wire_resp Q a t (c_eph P s) key). split; [exact Hn1|]. split; [exact Ho1|]. split; [exact U|]. intros d2 Hd2.
  destruct (initiator_connects P Q nA dt2 b a skA laA raA s t key sigma m d2 T C RA HA WA KA DA EA X1 Hd2) as (nA1 & Hn2 & Ht2 & Hc2 & Hf2).
  exists nA1, (wire_fin P b s (c_eph Q t) key m). split; [exact Hn2|]. split; [exact Hf2|]. split; [exact Hc2|]. intros d3 Hd3 Hser DB EB.
  assert (RB1 : reachable Q nB1) by (eapply later_reachable; [exact RB | eapply handles_later; exact Hn1]).
  destruct U as (U1 & U2 & U3 & U4 & U5 & U6 & U7 & U8 & U9).
  assert (C1 : compatible P Q b a1 m).
  { destruct C as (c1 & c2 & c3 & c4 & c5 & c6). unfold compatible, peer_mtu in *. rewrite U2, U3, U4. repeat (split; [assumption|]). exact c6. }
  assert (K1 : holds_key nB1 (n_now nB1 + Z.of_N dt3) a1 t) by (split; [rewrite U7; exact Hser|]; left; split; [exact Es | lia]).
  assert (W1 : welcome Q nB1 (n_now nB1 + Z.of_N dt3) a1) by (destruct WB1 as [w1 w2]; split; [exact w1 | lia]).
  assert (E1 : environment_fine nB1 a1) by (unfold environment_fine in *; rewrite U8; exact EB).
  destruct (responder_connects P Q nB1 dt3 b a1 skB laB raB s t key sigma m d3 T C1 RB1 HB1 W1 K1 DB E1 X2 Hd3) as (nB2 & Hn3 & _ & Hc3).
  exists nB2. split; [exact Hn3 | exact Hc3].
Qed.
