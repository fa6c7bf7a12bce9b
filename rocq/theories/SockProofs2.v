From Coq Require Import Lia ZifyBool ZifyNat ZifyN.
From Verif Require Import Base BaseLemmas BufferModel MethodModel AddrModel AddrSpec AddrProofs SockModel SockSpec SockProofs.
Local Open Scope N_scope.

Definition mapped (ip : bytes) : bool := bytes_eqb (firstn 12 ip) mapped_prefix.

Lemma mapped_v4 : forall ip, length ip = 16%nat -> wf_bytes ip -> is_v4mapped ip = mapped ip.
Proof.
  intros ip Hl Hw. apply eq_true_iff_eq. rewrite (v4mapped_iff ip Hl Hw). unfold mapped. rewrite bytes_eqb_iff. split.
  - intros (ip4 & ->). reflexivity.
  - intros H. exists (skipn 12 ip). rewrite <- H. symmetry. apply firstn_skipn.
Qed.

Lemma bound6_kind : forall s, bound6 true s = match kind_of s with KInet => false | _ => true end.
Proof. intros [[i [] d]|[]]; reflexivity. Qed.

Lemma mapped_prefix_ip : forall ip4, mapped (repeat 0 10 ++ [0xff; 0xff] ++ ip4) = true.
Proof. intros ip4. unfold mapped. apply bytes_eqb_iff. reflexivity. Qed.

(** What is given to sendmsg *)
Definition name_for (s : psock) (a : saddr) : saddr := if bound6 true s then address_widen a else a.

Lemma name_for_accepts : forall s a, reaches (kind_of s) a = true -> accepts (kind_of s) (name_for s a) = true.
Proof.
  intros s a H. unfold name_for. rewrite bound6_kind. destruct (kind_of s), a; cbn in H |- *; try discriminate; auto.
Qed.
Lemma name_for_denotes : forall s a, swf a -> denotes (name_for s a) = denotes a.
Proof. intros s a H. unfold name_for. destruct (bound6 true s); [apply widen_denotes; exact H|reflexivity]. Qed.

Lemma reaches_family : forall k a, reaches k a = true -> fam_of a <> FUnspec.
Proof. intros [] []; cbn; intros H; try discriminate. Qed.

Lemma send_ok : forall s local a, reaches (kind_of s) a = true -> (exists ctl, add_pktinfo local = Ok ctl) ->
  exists ctl, add_pktinfo local = Ok ctl /\ fastd_send true (Some s) local a = Ok [OSend s (name_for s a) ctl].
Proof.
  intros s local a Ha (ctl & Hc). exists ctl. split; [exact Hc|]. unfold fastd_send.
  apply reaches_family in Ha. destruct a; cbn in Ha; try contradiction; rewrite Hc; reflexivity.
Qed.

Lemma pktinfo_total : forall a, swf a -> exists ctl, add_pktinfo (Some a) = Ok ctl.
Proof.
  intros [|ip port|ip port flow scope|f] H; cbn [swf] in H; try (eexists; reflexivity).
  - destruct (add_pktinfo4 ip port) as (ctl & E & _); [apply H|]. eauto.
  - destruct (add_pktinfo6 ip port flow scope) as (ctl & E & _); [apply H|apply H|apply H|]. eauto.
Qed.

Lemma sub_length : forall n k (l : bytes), (k + n <= length l)%nat -> length (firstn n (skipn k l)) = n.
Proof. intros n k l H. rewrite firstn_length, skipn_length. lia. Qed.
Lemma pre_length : forall n (l : bytes), (n <= length l)%nat -> length (firstn n l) = n.
Proof. intros n l H. rewrite firstn_length. lia. Qed.
Lemma suf_length : forall (l : bytes), length l = 16%nat -> length (skipn 12 l) = 4%nat.
Proof. intros l H. rewrite skipn_length, H. reflexivity. Qed.

(** *** Replies *)
Lemma some_inj : forall A (x y : A), Some x = Some y -> x = y.
Proof. intros A x y H. congruence. Qed.

Lemma target_ok : forall msgs t, Forall cmsg_ok msgs -> target_of msgs = Some t ->
  match t with
  | T4 ip => length ip = 4%nat /\ wf_bytes ip
  | T6 ip ifindex => length ip = 16%nat /\ wf_bytes ip /\ length ifindex = 4%nat /\ wf_bytes ifindex
  end.
Proof.
  assert (HF : forall n l, wf_bytes l -> wf_bytes (firstn n l)).
  { intros n l H. apply Forall_forall. intros x Hx. unfold wf_bytes in H. rewrite Forall_forall in H. apply H. rewrite <- (firstn_skipn n). apply in_or_app. left. exact Hx. }
  assert (HS : forall n l, wf_bytes l -> wf_bytes (skipn n l)).
  { intros n l H. apply Forall_forall. intros x Hx. unfold wf_bytes in H. rewrite Forall_forall in H. apply H. rewrite <- (firstn_skipn n). apply in_or_app. right. exact Hx. }
  induction msgs as [|m r IH]; intros t Hok Ht; [discriminate|].
  destruct (Forall_inv Hok) as (_ & _ & Hw & _ & H4 & H6). pose proof (Forall_inv_tail Hok) as Hr. cbn [target_of] in Ht.
  destruct ((m_level m =? 0) && (m_type m =? 8)) eqn:E4.
  { apply some_inj in Ht. subst t. assert (HD : length (m_data m) = 12%nat) by (apply H4; lia). split; [apply sub_length; rewrite HD; lia|auto]. }
  destruct ((m_level m =? 41) && (m_type m =? 50)) eqn:E6.
  { apply some_inj in Ht. subst t. assert (HD : length (m_data m) = 20%nat) by (apply H6; lia).
    split; [apply pre_length; rewrite HD; lia|]. split; [auto|]. split; [apply sub_length; rewrite HD; lia|auto]. }
  exact (IH t Hr Ht).
Qed.

Lemma received_ok : forall s bound name msgs t, Forall cmsg_ok msgs -> target_of msgs = Some t ->
  swf name -> accepts (kind_of s) name = true ->
  exists local ctl', received (layout msgs) bound name = Ok (Some (local, address_simplify name)) /\
    add_pktinfo (Some local) = Ok ctl' /\ asks ctl' (send_from t) /\
    reaches (kind_of s) (address_simplify name) = true /\ same_host (name_for s (address_simplify name)) name.
Proof.
  intros s bound name msgs t Hok Ht Hn Ha. unfold received. rewrite (handle_control_ok msgs bound Hok), Ht. cbn [bind].
  pose proof (target_ok msgs t Hok Ht) as HT.
  (* the sender *)
  assert (HR : reaches (kind_of s) (address_simplify name) = true /\ name_for s (address_simplify name) = name_for s (address_simplify name) /\
    same_host (name_for s (address_simplify name)) name).
  { unfold name_for. rewrite bound6_kind. destruct name as [|ip port|ip port flow scope|f]; cbn [accepts] in Ha; try (destruct (kind_of s); discriminate).
    - destruct (kind_of s); try discriminate. cbn. repeat split.
    - cbn [swf] in Hn. cbn [address_simplify]. rewrite (mapped_v4 ip) by apply Hn. fold (mapped ip) in Ha.
      destruct (mapped ip) eqn:Em.
      + assert (Hd : kind_of s = KDual).
        { destruct (kind_of s); [discriminate| |reflexivity]. cbn [accepts] in Ha. fold (mapped ip) in Ha. rewrite Em in Ha. discriminate. }
        rewrite Hd. split; [reflexivity|]. split; [reflexivity|].
        pose proof (widen_simplify ip port flow scope Hn) as HW. cbn [address_simplify] in HW. rewrite (mapped_v4 ip), Em in HW by apply Hn.
        split; [reflexivity|]. rewrite widen_denotes.
        * pose proof (simplify_denotes (AInet6 ip port flow scope) Hn) as HD. cbn [address_simplify] in HD. rewrite (mapped_v4 ip), Em in HD by apply Hn. exact HD.
        * destruct Hn as (H1 & H2 & H3 & H4 & _). cbn [swf]. split; [apply suf_length; exact H1|]. split; [|split; assumption].
          apply Forall_forall. intros x Hx. unfold wf_bytes in H2. rewrite Forall_forall in H2. apply H2. rewrite <- (firstn_skipn 12). apply in_or_app. right. exact Hx.
      + destruct (kind_of s); try discriminate; cbn [reaches]; fold (mapped ip); rewrite Em; repeat split. }
  destruct HR as (HR & _ & HS).
  assert (HL : exists local ctl', (match local_of (Some t) bound with AUnspec => Ok None | a => Ok (Some (address_simplify a, address_simplify name)) end) =
      Ok (Some (local, address_simplify name)) /\ add_pktinfo (Some local) = Ok ctl' /\ asks ctl' (send_from t)).
  { destruct t as [ip|ip ifindex]; cbn [local_of].
    - destruct HT as (H1 & H2). destruct (add_pktinfo4 ip (get_port bound) H1) as (ctl & E & A).
      exists (AInet ip (get_port bound)), ctl. split; [reflexivity|]. split; assumption.
    - destruct HT as (H1 & H2 & H3 & H4). cbn [address_simplify send_from]. rewrite (mapped_v4 ip H1 H2). fold (mapped ip).
      destruct (mapped ip).
      + destruct (add_pktinfo4 (skipn 12 ip) (get_port bound)) as (ctl & E & A); [apply suf_length; exact H1|].
        exists (AInet (skipn 12 ip) (get_port bound)), ctl. split; [reflexivity|]. split; assumption.
      + destruct (add_pktinfo6 ip (get_port bound) [0; 0; 0; 0] (if is_linklocal ip then ifindex else [0; 0; 0; 0]) H1 H2) as (ctl & E & A).
        { destruct (is_linklocal ip); [exact H3|reflexivity]. }
        eexists. exists ctl. split; [reflexivity|]. split; [exact E|].
        unfold send_from6 in A |- *. rewrite <- (linklocal_iff ip H1 H2) in A |- *. destruct (is_linklocal ip); exact A. }
  destruct HL as (local & ctl' & E & Ep & A). exists local, ctl'.
  assert (E' : match local_of (Some t) bound with AUnspec => Ok None | _ => Ok (Some (address_simplify (local_of (Some t) bound), address_simplify name)) end =
    Ok (Some (local, address_simplify name))).
  { rewrite <- E. destruct t; reflexivity. }
  rewrite E'. auto.
Qed.

Lemma reply_ok : forall s bound name msgs t, Forall cmsg_ok msgs -> target_of msgs = Some t ->
  swf name -> accepts (kind_of s) name = true ->
  exists name' ctl', reply true s bound name (layout msgs) = Ok [OSend s name' ctl'] /\
    same_host name' name /\ accepts (kind_of s) name' = true /\ asks ctl' (send_from t).
Proof.
  intros s bound name msgs t Hok Ht Hn Ha.
  destruct (received_ok s bound name msgs t Hok Ht Hn Ha) as (local & ctl' & Er & Ep & A & HR & HS).
  unfold reply. rewrite Er. cbn [bind]. exists (name_for s (address_simplify name)), ctl'.
  destruct (send_ok s (Some local) (address_simplify name) HR) as (ctl & Ec & Es); [eauto|].
  rewrite Ep in Ec. injection Ec as <-. split; [exact Es|]. split; [exact HS|]. split; [apply name_for_accepts; exact HR|exact A].
Qed.

Lemma reply_none : forall v6 s bound name msgs, Forall cmsg_ok msgs -> target_of msgs = None -> reply v6 s bound name (layout msgs) = Ok [].
Proof. intros v6 s bound name msgs Hok Ht. unfold reply, received. rewrite (handle_control_ok msgs bound Hok), Ht. reflexivity. Qed.

(** *** The choice of sockets *)
Lemma defaults_family : forall c, configured c ->
  (forall b, c_def4 c = Some b -> b_fam b <> FInet6) /\ (forall b, c_def6 c = Some b -> b_fam b <> FInet).
Proof.
  induction 1 as [|c b f4 f6 Hc (H4 & H6)]; cbn; [split; discriminate|]. split.
  - intros b'. destruct (fam_eqb (b_fam b) FInet6) eqn:E; cbn [negb andb]; [apply H4|]. destruct (f4 || _)%bool; [|apply H4].
    intros Eb. injection Eb as <-. intros Ef. rewrite Ef in E. discriminate.
  - intros b'. destruct (fam_eqb (b_fam b) FInet) eqn:E; cbn [negb andb]; [apply H6|]. destruct (f6 || _)%bool; [|apply H6].
    intros Eb. injection Eb as <-. intros Ef. rewrite Ef in E. discriminate.
Qed.

Lemma reaches_fam : forall a k, reaches KDual a = true ->
  (match k, fam_of a with KInet, FInet | KInet6, FInet6 | KDual, _ => True | _, _ => False end) -> reaches k a = true.
Proof. intros [|ip port|ip port flow scope|f] [] H H'; cbn in *; try discriminate; try contradiction; auto. Qed.

Lemma socket_open_fits : forall c ok a s, configured c -> reaches KDual a = true -> socket_open c true ok (fam_of a) = Some s ->
  exists k, s = PDyn k /\ reaches k a = true.
Proof.
  intros c ok a s Hc Ha Hs. destruct (defaults_family c Hc) as (H4 & H6). unfold socket_open in Hs.
  assert (HO : forall f, option_map PDyn (bind_socket true ok f) = Some s ->
    exists k, s = PDyn k /\ k = match f with FInet => KInet | FInet6 => KInet6 | FUnspec => KDual end).
  { intros f E. unfold bind_socket in E. destruct ok; [|discriminate]. destruct f; cbn in E; injection E as <-; eauto. }
  destruct a as [|ip port|ip port flow scope|f]; try discriminate; cbn [fam_of] in Hs.
  - destruct (c_def4 c) as [b|] eqn:E4.
    + destruct (HO _ Hs) as (k & -> & ->). eexists. split; [reflexivity|]. apply reaches_fam; [exact Ha|].
      specialize (H4 b eq_refl). destruct (b_fam b); cbn; try exact Logic.I. contradiction.
    + destruct (c_def6 c); [discriminate|]. destruct (HO _ Hs) as (k & -> & ->). eexists. split; reflexivity.
  - destruct (c_def6 c) as [b|] eqn:E6.
    + assert (Hs' : option_map PDyn (bind_socket true ok (b_fam b)) = Some s) by (destruct (c_def4 c); exact Hs).
      destruct (HO _ Hs') as (k & -> & ->). eexists. split; [reflexivity|]. apply reaches_fam; [exact Ha|].
      specialize (H6 b eq_refl). destruct (b_fam b); cbn; try exact Logic.I. contradiction.
    + destruct (c_def4 c); [discriminate|]. destruct (HO _ Hs) as (k & -> & ->). eexists. split; [reflexivity|]. exact Ha.
Qed.

Definition pok (c : config) (tr : list saddr) (p : peer) : Prop :=
  swf (p_addr p) /\ swf (p_local p) /\
  match p_sock p with
  | None => p_est p = false
  | Some s =>
      if p_est p then reaches (kind_of s) (p_addr p) = true
      else match s with
           | PBound b => exists a, In a tr /\ default_sock c (fam_of a) = Some s
           | PDyn k => p_addr p = AUnspec \/ reaches k (p_addr p) = true
           end
  end.

Lemma pok_reset : forall c tr, pok c tr (mk_peer false AUnspec AUnspec None).
Proof. intros c tr. repeat split. Qed.

Lemma sendable_app : forall a b, sendable a -> sendable b -> sendable (a ++ b).
Proof. intros a b Ha Hb s n ct Hi. apply in_app_or in Hi. destruct Hi; eauto. Qed.
Lemma sendable_close : forall (x : option psock), sendable (match x with Some (PDyn k) => [OClose k] | _ => [] end).
Proof. intros [[b|k]|] s n ct Hi; cbn in Hi; intuition discriminate. Qed.
Lemma sendable_nil : sendable [].
Proof. intros s n ct []. Qed.

Lemma send_sendable : forall s local a, swf local -> reaches (kind_of s) a = true ->
  exists o, fastd_send true (Some s) (Some local) a = Ok o /\ sendable o.
Proof.
  intros s local a Hl Ha. destruct (send_ok s (Some local) a Ha (pktinfo_total local Hl)) as (ctl & _ & ->).
  eexists. split; [reflexivity|]. intros s' n ct [E|[]]. injection E as <- <- <-. apply name_for_accepts. exact Ha.
Qed.

Lemma equal_reaches : forall k a b, swf a -> swf b -> address_equal a b = true -> reaches k a = reaches k b.
Proof.
  intros k a b Ha Hb H. destruct a as [|ip port|ip port flow scope|f], b as [|ip' port'|ip' port' flow' scope'|f']; cbn [address_equal] in H; try discriminate; try (destruct k; reflexivity).
  destruct (bytes_eqb ip ip') eqn:E; cbn [negb] in H; [|discriminate]. apply bytes_eqb_iff in E. subst ip'. destruct k; reflexivity.
Qed.

Lemma step_fits : forall c tr e p, configured c -> event_ok e -> (forall a, In a (tried [e]) -> In a tr) ->
  (forall a1 a2 s, In a1 tr -> In a2 tr -> default_sock c (fam_of a1) = Some s -> reaches (kind_of s) a2 = true) ->
  pok c tr p -> exists p' o, step c true e p = Ok (p', o) /\ pok c tr p' /\ sendable o.
Proof.
  intros c tr e p Hc He Htr Hfit (Hpa & Hpl & Hps).
  assert (HRP : exists o, reset_peer p = (mk_peer false AUnspec AUnspec None, o) /\ sendable o).
  { unfold reset_peer, free_socket. eexists. split; [reflexivity|apply sendable_close]. }
  assert (HRA : exists p' o, reset_peer_address p = (p', o) /\ pok c tr p' /\ sendable o /\ (p_est p = false -> p_addr p' = AUnspec /\ p_est p' = false)).
  { unfold reset_peer_address. destruct (p_est p) eqn:Ee.
    - destruct HRP as (o & -> & Ho). eexists. exists o. split; [reflexivity|]. split; [apply pok_reset|]. split; [exact Ho|discriminate].
    - eexists. exists []. split; [reflexivity|]. split; [|split; [apply sendable_nil|auto]].
      split; [exact Logic.I|]. split; [exact Hpl|]. cbn [p_sock p_est p_addr]. destruct (p_sock p) as [[b|k]|]; auto. }
  destruct e as [a free ok| | |v local remote free ok| |]; cbn [step].
  - destruct (p_est p) eqn:Ee; [eexists; eexists; split; [reflexivity|split; [|apply sendable_nil]]; unfold pok; rewrite Ee; auto|].
    cbn [event_ok] in He. destruct He as (Ha & Hra).
    assert (Hin : In a tr) by (apply Htr; left; reflexivity).
    (* after claim_address *)
    assert (HC : exists p1, (let '(p, o1, _) := claim_address VNone None a free p in (p, o1)) = (p1, []) /\ p_est p1 = false /\
        swf (p_local p1) /\ p_sock p1 = p_sock p /\ (p_addr p1 = AUnspec \/ p_addr p1 = a)).
    { unfold claim_address, reset_peer_address. rewrite Ee. destruct free; cbn [negb]; (eexists; split; [reflexivity|]); cbn; auto 10. }
    destruct (claim_address VNone None a free p) as ((p1', o1) & cl). destruct HC as (p1 & E & He1 & Hl1 & Hs1 & Ha1). injection E as -> ->.
    (* after reset_socket *)
    assert (HR : exists p2 o2, reset_socket c true ok p1 = (p2, o2) /\ sendable o2 /\ p_est p2 = false /\ swf (p_local p2) /\ p_addr p2 = p_addr p1 /\
        pok c tr p2 /\ (p_sock p2 <> None -> p_addr p2 <> AUnspec -> exists s, p_sock p2 = Some s /\ reaches (kind_of s) (p_addr p2) = true)).
    { destruct Ha1 as [Ha1|Ha1].
      - unfold reset_socket. rewrite Ha1. unfold free_socket. eexists. eexists. split; [reflexivity|].
        split; [apply sendable_close|]. cbn. rewrite He1, Ha1. split; [reflexivity|]. split; [exact Hl1|]. split; [reflexivity|]. split; [|intros H; contradiction].
        split; [exact Logic.I|split; [exact Hl1|reflexivity]].
      - unfold reset_socket. rewrite Ha1.
        assert (Hna : a <> AUnspec) by (intros ->; discriminate).
        destruct (sock_dynamic p1) eqn:Ed.
        + assert (HX : exists p2 o2,
            (let '(p, o) := free_socket p1 in
             let set s := mk_peer (p_est p) (p_addr p) (p_local p) s in
             match fam_of a with
             | FUnspec => (p, o)
             | f => match default_sock c f with
                    | Some s => (set (Some s), o)
                    | None => match socket_open c true ok f with
                              | Some (PDyn k) => (set (Some (PDyn k)), o ++ [OOpen k])
                              | s => (set s, o)
                              end
                    end
             end) = (p2, o2) /\ sendable o2 /\ p_est p2 = false /\ swf (p_local p2) /\ p_addr p2 = a /\
             pok c tr p2 /\ (p_sock p2 <> None -> p_addr p2 <> AUnspec -> exists s, p_sock p2 = Some s /\ reaches (kind_of s) (p_addr p2) = true)).
          { unfold free_socket. cbn [p_est p_addr p_local p_sock]. rewrite He1, Ha1.
            assert (HF : forall f, f = fam_of a -> f <> FUnspec -> exists p2 o2,
              match default_sock c f with
              | Some s => (mk_peer false a (p_local p1) (Some s), match p_sock p1 with Some (PDyn k) => [OClose k] | _ => [] end)
              | None => match socket_open c true ok f with
                        | Some (PDyn k) => (mk_peer false a (p_local p1) (Some (PDyn k)), match p_sock p1 with Some (PDyn k) => [OClose k] | _ => [] end ++ [OOpen k])
                        | s => (mk_peer false a (p_local p1) s, match p_sock p1 with Some (PDyn k) => [OClose k] | _ => [] end)
                        end
              end = (p2, o2) /\ sendable o2 /\ p_est p2 = false /\ swf (p_local p2) /\ p_addr p2 = a /\
              pok c tr p2 /\ (p_sock p2 <> None -> p_addr p2 <> AUnspec -> exists s, p_sock p2 = Some s /\ reaches (kind_of s) (p_addr p2) = true)).
            { intros f -> Hf. destruct (default_sock c (fam_of a)) as [s|] eqn:Eds.
              - eexists. eexists. split; [reflexivity|]. split; [apply sendable_close|]. cbn. split; [reflexivity|]. split; [exact Hl1|]. split; [reflexivity|].
                split; [|intros _ _; exists s; split; [reflexivity|exact (Hfit a a s Hin Hin Eds)]].
                split; [exact Ha|]. split; [exact Hl1|]. cbn. destruct s as [b|k]; [eauto|].
                exfalso. unfold default_sock in Eds. destruct (match fam_of a with FInet => _ | _ => _ end) as [b|]; [destruct (b_dynamic b)|]; discriminate.
              - destruct (socket_open c true ok (fam_of a)) as [s|] eqn:Eo.
                + destruct (socket_open_fits c ok a s Hc Hra Eo) as (k & -> & Hk). eexists. eexists. split; [reflexivity|].
                  split; [apply sendable_app; [apply sendable_close|intros s' n ct [Ex|[]]; discriminate]|]. cbn. split; [reflexivity|]. split; [exact Hl1|]. split; [reflexivity|].
                  split; [|intros _ _; eauto]. split; [exact Ha|]. split; [exact Hl1|]. cbn. auto.
                + eexists. eexists. split; [reflexivity|]. split; [apply sendable_close|]. cbn. split; [reflexivity|]. split; [exact Hl1|]. split; [reflexivity|].
                  split; [|intros H; contradiction]. split; [exact Ha|]. split; [exact Hl1|reflexivity]. }
            pose proof (reaches_family KDual a Hra) as Hfa.
            destruct (fam_of a) eqn:Ef; [contradiction| |]; apply HF; congruence. }
          destruct a; try contradiction; cbn [negb]; exact HX.
        + assert (HB : exists b, p_sock p1 = Some (PBound b)).
          { unfold sock_dynamic in Ed. destruct (p_sock p1) as [[b|k]|]; try discriminate. eauto. }
          destruct HB as (b & Eb). exists p1, [].
          split; [destruct a; try contradiction; reflexivity|]. split; [apply sendable_nil|]. split; [exact He1|]. split; [exact Hl1|]. split; [exact Ha1|].
          rewrite Hs1 in Eb. rewrite Eb in Hps. destruct Hps as (a0 & Ha0 & Hd).
          split.
          * split; [rewrite Ha1; exact Ha|]. split; [exact Hl1|]. rewrite Hs1, Eb, He1. eauto.
          * intros _ _. exists (PBound b). split; [congruence|]. rewrite Ha1. exact (Hfit a0 a _ Ha0 Hin Hd). }
    destruct HR as (p2 & o2 & -> & Ho2 & He2 & Hl2 & _ & Hp2 & Hsend).
    assert (HS : exists o3, send_init true p2 = Ok o3 /\ sendable o3).
    { unfold send_init. destruct (p_sock p2) as [s|] eqn:Es; [|exists []; split; [reflexivity|apply sendable_nil]].
      destruct (p_addr p2) eqn:Eap; [exists []; split; [reflexivity|apply sendable_nil]| | |];
        (destruct (Hsend ltac:(discriminate) ltac:(discriminate)) as (s' & E & Hk); injection E as <-; apply send_sendable; assumption). }
    destruct HS as (o3 & -> & Ho3). cbn [bind app]. eexists. eexists. split; [reflexivity|]. split; [exact Hp2|]. apply sendable_app; assumption.
  - destruct (p_est p) eqn:Ee; [|eexists; eexists; split; [reflexivity|split; [|apply sendable_nil]]; unfold pok; rewrite Ee; auto].
    unfold send_init. destruct (p_sock p) as [s|] eqn:Es; [|discriminate].
    assert (Hk : reaches (kind_of s) (p_addr p) = true) by exact Hps.
    destruct (send_sendable s (p_local p) (p_addr p) Hpl Hk) as (o & E & Ho).
    destruct (p_addr p) eqn:Eap; [destruct (kind_of s); discriminate| | |]; rewrite E; cbn [bind]; eexists; eexists; (split; [reflexivity|]); (split; [|exact Ho]);
      unfold pok; rewrite Eap, Es, Ee; auto.
  - destruct (p_est p) eqn:Ee; [|eexists; eexists; split; [reflexivity|split; [|apply sendable_nil]]; unfold pok; rewrite Ee; auto].
    destruct (p_sock p) as [s|] eqn:Es; [|discriminate].
    destruct (send_sendable s (p_local p) (p_addr p) Hpl Hps) as (o & -> & Ho). cbn [bind]. eexists. eexists. split; [reflexivity|]. split; [|exact Ho].
    unfold pok. rewrite Es, Ee. auto.
  - cbn [event_ok] in He. destruct He as (Hl & Hr & Hrd & Hv).
    match goal with |- context [if ?x then Ok (p, []) else _] => destruct x eqn:Eg end.
    { eexists. eexists. split; [reflexivity|]. split; [split; [exact Hpa|split; [exact Hpl|exact Hps]]|apply sendable_nil]. }
    assert (HCL : exists p1 o1 cl, claim_address v (Some local) remote free p = (p1, o1, cl) /\ sendable o1 /\
      (cl = true -> swf (p_addr p1) /\ swf (p_local p1) /\ exists s, p_sock p1 = Some s /\ reaches (kind_of s) (p_addr p1) = true)).
    { unfold claim_address. destruct free; cbn [negb].
      2:{ destruct HRA as (p' & o & -> & _ & Ho & _). eexists. eexists. exists false. split; [reflexivity|]. split; [exact Ho|discriminate]. }
      destruct v as [|b| |]; try contradiction.
      - cbn [p_sock p_est p_addr p_local free_socket].
        destruct (match p_sock p with Some (PBound b') => b_id b =? b_id b' | _ => false end).
        + eexists. eexists. exists true. split; [reflexivity|]. split; [apply sendable_nil|]. intros _. cbn. split; [exact Hr|]. split; [exact Hl|]. eexists. split; [reflexivity|exact Hv].
        + eexists. eexists. exists true. split; [reflexivity|]. split; [apply sendable_close|]. intros _. cbn. split; [exact Hr|]. split; [exact Hl|]. eexists. split; [reflexivity|exact Hv].
      - eexists. eexists. exists true. split; [reflexivity|]. split; [apply sendable_nil|]. intros _. cbn. split; [exact Hr|]. split; [exact Hl|].
        destruct (p_sock p) as [[b|k]|] eqn:Es; try discriminate. exists (PDyn k). split; [reflexivity|].
        apply negb_false_iff in Eg. cbn [kind_of]. rewrite <- (equal_reaches k (p_addr p) remote Hpa Hr Eg).
        destruct (p_est p); [exact Hps|]. destruct Hps as [Hps|Hps]; [|exact Hps]. rewrite Hps in Eg. destruct remote; cbn in Eg; try discriminate. }
    destruct HCL as (p1 & o1 & cl & -> & Ho1 & Hcl).
    destruct (cl && ok)%bool eqn:Ec.
    + apply andb_true_iff in Ec. destruct Ec as (-> & ->). destruct (Hcl eq_refl) as (H1 & H2 & s & H3 & H4).
      eexists. eexists. split; [reflexivity|]. split; [|exact Ho1]. split; [exact H1|]. split; [exact H2|]. cbn. rewrite H3. exact H4.
    + unfold reset_peer, free_socket. eexists. eexists. split; [reflexivity|]. split; [apply pok_reset|]. apply sendable_app; [exact Ho1|apply sendable_close].
  - destruct HRP as (o & -> & Ho). eexists. eexists. split; [reflexivity|]. split; [apply pok_reset|exact Ho].
  - destruct HRA as (p' & o & -> & Hp' & Ho & _). eexists. eexists. split; [reflexivity|]. split; assumption.
Qed.

Lemma run_fits : forall c tr es p, configured c -> Forall event_ok es -> (forall a, In a (tried es) -> In a tr) ->
  (forall a1 a2 s, In a1 tr -> In a2 tr -> default_sock c (fam_of a1) = Some s -> reaches (kind_of s) a2 = true) ->
  pok c tr p -> exists p' o, run c true es p = Ok (p', o) /\ pok c tr p' /\ sendable o.
Proof.
  intros c tr es. induction es as [|e es IH]; intros p Hc Hes Htr Hfit Hp; cbn [run].
  - eexists. eexists. split; [reflexivity|]. split; [exact Hp|apply sendable_nil].
  - destruct (step_fits c tr e p Hc (Forall_inv Hes)) as (p1 & o1 & -> & Hp1 & Ho1); [|exact Hfit|exact Hp|].
    { intros a Ha. apply Htr. destruct e; cbn in Ha |- *; try contradiction. destruct Ha as [->|[]]. left. reflexivity. }
    cbn [bind]. destruct (IH p1 Hc (Forall_inv_tail Hes)) as (p2 & o2 & -> & Hp2 & Ho2); [|exact Hfit|exact Hp1|].
    { intros a Ha. apply Htr. destruct e; cbn; auto. }
    cbn [bind]. eexists. eexists. split; [reflexivity|]. split; [exact Hp2|]. apply sendable_app; assumption.
Qed.

Lemma all_sendable : forall c es, configured c -> Forall event_ok es -> defaults_fit c es ->
  exists p o, run c true es new_peer = Ok (p, o) /\ sendable o.
Proof.
  intros c es Hc Hes Hfit. destruct (run_fits c (tried es) es new_peer Hc Hes) as (p & o & E & _ & Ho); eauto.
  apply pok_reset.
Qed.

(** *** Sockets opened and closed *)
Definition opens (k : kind) (o : list out) : nat := length (filter (is_open k) o).
Definition closes (k : kind) (o : list out) : nat := length (filter (is_close k) o).

Lemma opens_app : forall k a b, opens k (a ++ b) = (opens k a + opens k b)%nat.
Proof. intros k a b. unfold opens. rewrite filter_app, app_length. reflexivity. Qed.
Lemma closes_app : forall k a b, closes k (a ++ b) = (closes k a + closes k b)%nat.
Proof. intros k a b. unfold closes. rewrite filter_app, app_length. reflexivity. Qed.

(** What is held before and opened is held afterwards or closed *)
Definition balanced (p p' : peer) (o : list out) : Prop :=
  forall k, (holds k (p_sock p) + opens k o = holds k (p_sock p') + closes k o)%nat.

Lemma balanced_id : forall p p', p_sock p' = p_sock p -> balanced p p' [].
Proof. intros p p' E k. rewrite E. unfold opens, closes. cbn. lia. Qed.
Lemma balanced_app : forall p p1 p2 o1 o2, balanced p p1 o1 -> balanced p1 p2 o2 -> balanced p p2 (o1 ++ o2).
Proof. intros p p1 p2 o1 o2 H1 H2 k. specialize (H1 k). specialize (H2 k). rewrite opens_app, closes_app. lia. Qed.
Lemma balanced_free : forall p, balanced p (fst (free_socket p)) (snd (free_socket p)).
Proof. intros p k. unfold free_socket. cbn. destruct (p_sock p) as [[b|[]]|], k; reflexivity. Qed.
Lemma balanced_sock : forall p p1 p2 o, balanced p p1 o -> p_sock p2 = p_sock p1 -> balanced p p2 o.
Proof. intros p p1 p2 o H E k. rewrite E. apply H. Qed.

Lemma balanced_reset : forall p, balanced p (fst (reset_peer p)) (snd (reset_peer p)).
Proof. intros p. exact (balanced_free p). Qed.
Lemma balanced_reset_address : forall p, balanced p (fst (reset_peer_address p)) (snd (reset_peer_address p)).
Proof. intros p. unfold reset_peer_address. destruct (p_est p); [apply balanced_reset|apply balanced_id; reflexivity]. Qed.
Lemma balanced_claim : forall v l a free p, balanced p (fst (fst (claim_address v l a free p))) (snd (fst (claim_address v l a free p))).
Proof.
  intros v l a free p. unfold claim_address. destruct free; cbn [negb].
  2:{ pose proof (balanced_reset_address p) as H. destruct (reset_peer_address p). exact H. }
  destruct v as [|b| |]; try (apply balanced_id; reflexivity). cbn [p_sock p_est p_addr p_local free_socket].
  destruct (p_sock p) as [[b'|k']|] eqn:Es.
  - destruct (b_id b =? b_id b'); intros k; cbn; rewrite Es; destruct k; reflexivity.
  - intros k. cbn. rewrite Es. destruct k, k'; reflexivity.
  - intros k. cbn. rewrite Es. destruct k; reflexivity.
Qed.
Lemma balanced_socket : forall c v6 ok p, balanced p (fst (reset_socket c v6 ok p)) (snd (reset_socket c v6 ok p)).
Proof.
  intros c v6 ok p. unfold reset_socket.
  assert (HX : forall ad f, balanced p (fst (match f with
             | FUnspec => free_socket p
             | f => match default_sock c f with
                    | Some s => (mk_peer (p_est p) ad (p_local p) (Some s), snd (free_socket p))
                    | None => match socket_open c v6 ok f with
                              | Some (PDyn k) => (mk_peer (p_est p) ad (p_local p) (Some (PDyn k)), snd (free_socket p) ++ [OOpen k])
                              | s => (mk_peer (p_est p) ad (p_local p) s, snd (free_socket p))
                              end
                    end
             end)) (snd (match f with
             | FUnspec => free_socket p
             | f => match default_sock c f with
                    | Some s => (mk_peer (p_est p) ad (p_local p) (Some s), snd (free_socket p))
                    | None => match socket_open c v6 ok f with
                              | Some (PDyn k) => (mk_peer (p_est p) ad (p_local p) (Some (PDyn k)), snd (free_socket p) ++ [OOpen k])
                              | s => (mk_peer (p_est p) ad (p_local p) s, snd (free_socket p))
                              end
                    end
             end))).
  { intros ad f.
    assert (HB : forall s, match s with Some (PDyn _) => False | _ => True end -> balanced p (mk_peer (p_est p) ad (p_local p) s) (snd (free_socket p))).
    { intros s Hs k. pose proof (balanced_free p k) as H. cbn [fst free_socket p_sock] in H. cbn [p_sock]. destruct s as [[b|k']|]; [|contradiction|]; destruct k; exact H. }
    assert (HO : forall f', balanced p (fst (match default_sock c f' with
                    | Some s => (mk_peer (p_est p) ad (p_local p) (Some s), snd (free_socket p))
                    | None => match socket_open c v6 ok f' with
                              | Some (PDyn k) => (mk_peer (p_est p) ad (p_local p) (Some (PDyn k)), snd (free_socket p) ++ [OOpen k])
                              | s => (mk_peer (p_est p) ad (p_local p) s, snd (free_socket p))
                              end
                    end)) (snd (match default_sock c f' with
                    | Some s => (mk_peer (p_est p) ad (p_local p) (Some s), snd (free_socket p))
                    | None => match socket_open c v6 ok f' with
                              | Some (PDyn k) => (mk_peer (p_est p) ad (p_local p) (Some (PDyn k)), snd (free_socket p) ++ [OOpen k])
                              | s => (mk_peer (p_est p) ad (p_local p) s, snd (free_socket p))
                              end
                    end))).
    { intros f'. destruct (default_sock c f') as [s|] eqn:Ed.
      - apply HB. unfold default_sock in Ed. destruct (match f' with FInet => _ | _ => _ end) as [b|]; [|discriminate]. destruct (b_dynamic b); [discriminate|]. injection Ed as <-. exact Logic.I.
      - destruct (socket_open c v6 ok f') as [[b|k']|]; [apply HB; exact Logic.I| |apply HB; exact Logic.I].
        apply balanced_app with (p1 := fst (free_socket p)); [apply balanced_free|]. intros k. cbn. destruct k, k'; reflexivity. }
    destruct f; [apply balanced_free|apply HO|apply HO]. }
  destruct (p_addr p) as [|ip port|ip port flow scope|f]; [apply balanced_free| | |];
    (destruct (sock_dynamic p); cbn [negb]; [|apply balanced_id; reflexivity]).
  - exact (HX (p_addr p) FInet).
  - exact (HX (p_addr p) FInet6).
  - exact (HX (p_addr p) FUnspec).
Qed.

Lemma balanced_send : forall v6 s l a o, fastd_send v6 s l a = Ok o -> forall k, opens k o = 0%nat /\ closes k o = 0%nat.
Proof.
  intros v6 s l a o H k. unfold fastd_send in H. destruct s as [s|]; [|discriminate].
  destruct a; try discriminate; (destruct (add_pktinfo l); [|discriminate..]; cbn [bind] in H; injection H as <-; destruct k; split; reflexivity).
Qed.
Lemma balanced_init : forall v6 p o, send_init v6 p = Ok o -> balanced p p o.
Proof.
  intros v6 p o H k. unfold send_init in H.
  assert (HN : Ok [] = Ok o -> (holds k (p_sock p) + opens k o = holds k (p_sock p) + closes k o)%nat) by (intros E; injection E as <-; reflexivity).
  destruct (p_sock p) as [s|]; [|exact (HN H)].
  destruct (p_addr p); [exact (HN H)| | |]; destruct (balanced_send _ _ _ _ _ H k); lia.
Qed.

Lemma step_balanced : forall c v6 e p p' o, step c v6 e p = Ok (p', o) -> balanced p p' o.
Proof.
  intros c v6 e p p' o H. destruct e as [a free ok| | |v local remote free ok| |]; cbn [step] in H.
  - destruct (p_est p); [injection H as <- <-; apply balanced_id; reflexivity|].
    pose proof (balanced_claim VNone None a free p) as H1. destruct (claim_address VNone None a free p) as ((p1 & o1) & cl). cbn [fst snd] in H1.
    pose proof (balanced_socket c v6 ok p1) as H2. destruct (reset_socket c v6 ok p1) as (p2 & o2). cbn [fst snd] in H2.
    destruct (send_init v6 p2) as [o3| | |] eqn:E3; try discriminate. cbn [bind] in H. injection H as <- <-.
    eapply balanced_app; [exact H1|]. eapply balanced_app; [exact H2|]. apply (balanced_init v6). exact E3.
  - destruct (p_est p); [|injection H as <- <-; apply balanced_id; reflexivity].
    destruct (send_init v6 p) as [o3| | |] eqn:E3; try discriminate. cbn [bind] in H. injection H as <- <-. apply (balanced_init v6). exact E3.
  - destruct (p_est p); [|injection H as <- <-; apply balanced_id; reflexivity].
    destruct (fastd_send v6 (p_sock p) (Some (p_local p)) (p_addr p)) as [o3| | |] eqn:E3; try discriminate. cbn [bind] in H. injection H as <- <-.
    intros k. destruct (balanced_send _ _ _ _ _ E3 k). lia.
  - match type of H with (if ?x then _ else _) = _ => destruct x end; [injection H as <- <-; apply balanced_id; reflexivity|].
    pose proof (balanced_claim v (Some local) remote free p) as H1. destruct (claim_address v (Some local) remote free p) as ((p1 & o1) & cl). cbn [fst snd] in H1.
    destruct (cl && ok)%bool.
    + injection H as <- <-. eapply balanced_sock; [exact H1|reflexivity].
    + pose proof (balanced_reset p1) as H2. destruct (reset_peer p1) as (p2 & o2). cbn [fst snd] in H2. injection H as <- <-. eapply balanced_app; eassumption.
  - pose proof (balanced_reset p) as H1. destruct (reset_peer p). injection H as <- <-. exact H1.
  - pose proof (balanced_reset_address p) as H1. destruct (reset_peer_address p). injection H as <- <-. exact H1.
Qed.

Lemma run_balanced : forall c v6 es p p' o, run c v6 es p = Ok (p', o) -> balanced p p' o.
Proof.
  intros c v6. induction es as [|e es IH]; intros p p' o H; cbn [run] in H.
  - injection H as <- <-. apply balanced_id. reflexivity.
  - destruct (step c v6 e p) as [(p1 & o1)| | |] eqn:E1; try discriminate. cbn [bind] in H.
    destruct (run c v6 es p1) as [(p2 & o2)| | |] eqn:E2; try discriminate. cbn [bind] in H. injection H as <- <-.
    eapply balanced_app; [eapply step_balanced; exact E1|]. eapply IH. exact E2.
Qed.

Lemma all_closed : forall c v6 es p o k, run c v6 es new_peer = Ok (p, o) ->
  length (filter (is_open k) o) = (length (filter (is_close k) o) + holds k (p_sock p))%nat.
Proof. intros c v6 es p o k H. pose proof (run_balanced _ _ _ _ _ _ H k) as HB. unfold opens, closes in HB. cbn in HB. lia. Qed.

(** *** Data of a connection *)
Lemma data_sent : forall c p b bound name msgs t, Forall cmsg_ok msgs -> target_of msgs = Some t ->
  swf name -> accepts (kind_of (PBound b)) name = true ->
  exists local remote p1 o1 name' ctl', received (layout msgs) bound name = Ok (Some (local, remote)) /\
    step c true (EEstablish (VBound b) local remote true true) p = Ok (p1, o1) /\ p_est p1 = true /\
    step c true EData p1 = Ok (p1, [OSend (PBound b) name' ctl']) /\
    same_host name' name /\ accepts (kind_of (PBound b)) name' = true /\ asks ctl' (send_from t).
Proof.
  intros c p b bound name msgs t Hok Ht Hn Ha.
  destruct (received_ok (PBound b) bound name msgs t Hok Ht Hn Ha) as (local & ctl' & Er & Ep & A & HR & HS).
  destruct (send_ok (PBound b) (Some local) (address_simplify name) HR) as (ctl & Ec & Es); [eauto|].
  rewrite Ep in Ec. injection Ec as <-.
  exists local, (address_simplify name). cbn [step]. unfold claim_address. cbn [negb p_sock p_est p_addr p_local free_socket].
  destruct (match p_sock p with Some (PBound b') => b_id b =? b_id b' | _ => false end);
    (eexists; eexists; exists (name_for (PBound b) (address_simplify name)), ctl'; split; [exact Er|]; split; [reflexivity|]; split; [reflexivity|];
     cbn [p_est p_sock p_local p_addr]; rewrite Es; split; [reflexivity|]; split; [exact HS|]; split; [apply name_for_accepts; exact HR|exact A]).
Qed.

(** *** The wrong socket *)
Lemma stuck : forall c b es p, b_fam b = FInet -> p_est p = false -> p_sock p = Some (PBound b) -> swf (p_local p) ->
  Forall (fun e => exists ip port flow scope, e = ETry (AInet6 ip port flow scope) true true) es ->
  exists p' o, run c true es p = Ok (p', o) /\ p_sock p' = Some (PBound b) /\
    length o = length es /\ forall x, In x o -> exists name ctl, x = OSend (PBound b) name ctl /\ accepts (kind_of (PBound b)) name = false.
Proof.
  intros c b es. induction es as [|e es IH]; intros p Hb He Hs Hl Hes.
  - exists p, []. cbn. repeat split; auto. intros x [].
  - destruct (Forall_inv Hes) as (ip & port & flow & scope & ->). cbn [run step]. rewrite He.
    unfold claim_address. cbn [negb]. unfold reset_socket, sock_dynamic. cbn [p_addr p_sock p_est p_local]. rewrite Hs. cbn [negb].
    unfold send_init. cbn [p_addr p_sock p_est p_local]. unfold fastd_send.
    destruct (pktinfo_total (p_local p) Hl) as (ctl & Hp). rewrite Hp. cbn [bind].
    destruct (IH (mk_peer (p_est p) (AInet6 ip port flow scope) (p_local p) (Some (PBound b))) Hb He eq_refl Hl (Forall_inv_tail Hes)) as (p' & o & E & Hs' & Hlen & Ho).
    rewrite E. cbn [bind]. eexists. eexists. split; [reflexivity|]. split; [exact Hs'|]. cbn [app length]. split; [rewrite Hlen; reflexivity|].
    intros x [<-|Hx]; [|exact (Ho x Hx)]. eexists. eexists. split; [reflexivity|].
    cbn [bound6]. rewrite Hb. cbn. rewrite Hb. reflexivity.
Qed.

(** Only sockets for both families, or none for which a bind address is configured *)
Lemma any_fits : forall c es, configured c -> (forall b, In b (c_binds c) -> b_fam b = FUnspec \/ b_dynamic b = true) ->
  Forall event_ok es -> defaults_fit c es.
Proof.
  intros c es Hc Hb Hes a1 a2 s _ H2 Hd.
  assert (HI : (forall b, c_def4 c = Some b -> In b (c_binds c)) /\ (forall b, c_def6 c = Some b -> In b (c_binds c))).
  { clear -Hc. induction Hc as [|c b f4 f6 Hc (H4 & H6)]; cbn; [split; discriminate|]. split; intros b' E.
    - destruct (negb (fam_eqb (b_fam b) FInet6) && _)%bool; [left; congruence|right; auto].
    - destruct (negb (fam_eqb (b_fam b) FInet) && _)%bool; [left; congruence|right; auto]. }
  destruct HI as (HI4 & HI6).
  assert (HB : exists b, s = PBound b /\ b_dynamic b = false /\ In b (c_binds c)).
  { unfold default_sock in Hd. destruct (fam_of a1); [discriminate| |].
    - destruct (c_def4 c) as [b|] eqn:E; [|discriminate]. destruct (b_dynamic b) eqn:Ed; [discriminate|]. injection Hd as <-. exists b. split; [reflexivity|]. split; [exact Ed|]. apply HI4. reflexivity.
    - destruct (c_def6 c) as [b|] eqn:E; [|discriminate]. destruct (b_dynamic b) eqn:Ed; [discriminate|]. injection Hd as <-. exists b. split; [reflexivity|]. split; [exact Ed|]. apply HI6. reflexivity. }
  destruct HB as (b & -> & Hdyn & Hin). destruct (Hb b Hin) as [Hf|Hf]; [|congruence]. cbn [kind_of]. rewrite Hf.
  clear -H2 Hes. induction es as [|e es IH]; [destruct H2|].
  pose proof (Forall_inv Hes) as He. pose proof (Forall_inv_tail Hes) as Hr.
  destruct e; cbn [tried] in H2; try exact (IH Hr H2). destruct H2 as [->|H2]; [apply He|exact (IH Hr H2)].
Qed.

Lemma stuck_witness : exists c b4 b6 a4, configured c /\
  default_sock c FInet = Some (PBound b4) /\ default_sock c FInet6 = Some (PBound b6) /\ kind_of (PBound b6) = KInet6 /\
  exists p o, step c true (ETry a4 true true) new_peer = Ok (p, o) /\ sendable o /\ length o = 1%nat /\
  forall es, Forall (fun e => exists ip port flow scope, e = ETry (AInet6 ip port flow scope) true true) es ->
    exists p' o', run c true es p = Ok (p', o') /\ length o' = length es /\
      forall x, In x o' -> exists name ctl, x = OSend (PBound b4) name ctl /\ accepts (kind_of (PBound b4)) name = false.
Proof.
  pose (b4 := mk_bind 1 FInet false). pose (b6 := mk_bind 2 FInet6 false). pose (a4 := AInet [192; 0; 2; 1] [0x27; 0x10]).
  pose (c := config_bind b6 false false (config_bind b4 false false no_binds)).
  exists c, b4, b6, a4. split; [repeat constructor|]. split; [reflexivity|]. split; [reflexivity|]. split; [reflexivity|].
  exists (mk_peer false a4 AUnspec (Some (PBound b4))). eexists. split; [reflexivity|]. split; [|split; [reflexivity|]].
  - intros s n ct [E|[]]. injection E as <- <- <-. reflexivity.
  - intros es Hes. destruct (stuck c b4 es (mk_peer false a4 AUnspec (Some (PBound b4)))) as (p' & o & E & _ & Hl & Ho); auto; try reflexivity; try exact Logic.I.
    exists p', o. auto.
Qed.
