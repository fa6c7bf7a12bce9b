(** Weakest preconditions: events *)
From Verif Require Import Base BufferModel NonceModel MethodModel HandshakeModel HandshakeSpec NodeModel NodeSteps NodeWf NodeInv NodeFun NodeFun2 NodeFun3 NodeFun4
  NodeSpec NodeProofs NodeSafe NodeSafe2 NodeSafe3 NodeSafe4 NodeCrashSpec.
From Verif Require HandshakeProofs.
From Coq Require Import Lia ZifyBool ZifyNat ZifyN Sorted.
Local Open Scope Z_scope.

Section Safe.
Variable P : params.
Notation ex := (ex P).
Notation exp := (exp P).

(** ** Received packets *)
Lemma lookup_found : forall n a q, ids_ok n -> lookup_addr (n_peers n) a = Some q -> exists p, find_id (n_peers n) q = Some p /\ p_addr p = Some a.
Proof.
  intros n a q Hi H. unfold lookup_addr in H. destruct (find _ (n_peers n)) as [p|] eqn:E; [|discriminate]. injection H as <-.
  apply find_some in E. destruct E as [Hin Ha]. exists p. split; [apply in_find; assumption|]. apply addr_eqb_true. exact Ha.
Qed.

Lemma wp_receive : forall sk la ra d n (Q : unit -> node -> Prop), ex n -> ready n -> alive_sk n sk ->
  match sk with SBound _ => True | SDyn o _ => forall q, In q (n_peers n) -> p_id q <> o -> ~ names_sender d (p_key q) end ->
  (forall n', ex n' -> Q tt n') -> wp (receive P sk la ra d) n Q.
Proof.
  intros sk la ra d n Q X Hr Ha Hs H. apply wp_bnd. apply wp_gets. apply wp_bnd.
  assert (Hgo : forall pid, match pid with Some pid => exists p, find_id (n_peers n) pid = Some p /\ p_addr p = Some ra | None => True end ->
    match sk with SBound _ => True | SDyn o _ => pid = Some o /\ sk_for n o sk end ->
    wp (let cls := classify d in
      can <- match pid with
             | None => ret false
             | Some pid => p <- rd pid ;; ret (is_established p && addr_eqb (p_laddr p) (Some la))%bool
             end ;;
      floating <- gets n_floating ;;
      match pid, cls, can with
      | Some pid, PData pkt _, true => handle_recv P pid (slice pkt 2 6)
      | _, _, _ =>
          if (match pid with None => negb (floating || allow_verify P) | Some _ => false end)%bool then ret tt
          else match cls with
          | PHandshake pkt ctl =>
              o <- lift (handshake_handle (c_hs P) pkt ctl) ;;
              match o with
              | HIgnore => ret tt
              | HError _ _ _ => send_error sk ra pid
              | HProtocol h => w <- lift (view pkt h) ;; proto_handshake P sk la ra pid w
              end
          | PData _ _ =>
              backoff <- flip ;;
              when (negb backoff) (handshake_init (Some sk) (Some ra) None)
          | PInvalid => ret tt
          end
      end) n Q).
  { intros pid Hp Hk. cbv zeta. apply wp_bnd.
    assert (Hrest : forall can, (can = true -> match pid with Some pid => exists p, find_id (n_peers n) pid = Some p /\ is_established p = true | None => True end) ->
       wp (floating <- gets n_floating ;;
      match pid, classify d, can with
      | Some pid, PData pkt _, true => handle_recv P pid (slice pkt 2 6)
      | _, _, _ =>
          if (match pid with None => negb (floating || allow_verify P) | Some _ => false end)%bool then ret tt
          else match classify d with
          | PHandshake pkt ctl =>
              o <- lift (handshake_handle (c_hs P) pkt ctl) ;;
              match o with
              | HIgnore => ret tt
              | HError _ _ _ => send_error sk ra pid
              | HProtocol h => w <- lift (view pkt h) ;; proto_handshake P sk la ra pid w
              end
          | PData _ _ =>
              backoff <- flip ;;
              when (negb backoff) (handshake_init (Some sk) (Some ra) None)
          | PInvalid => ret tt
          end
      end) n Q).
    { intros can Hcan. apply wp_bnd. apply wp_gets.
      assert (Hother : wp (if (match pid with None => negb (n_floating n || allow_verify P) | Some _ => false end)%bool then ret tt
          else match classify d with
          | PHandshake pkt ctl =>
              o <- lift (handshake_handle (c_hs P) pkt ctl) ;;
              match o with
              | HIgnore => ret tt
              | HError _ _ _ => send_error sk ra pid
              | HProtocol h => w <- lift (view pkt h) ;; proto_handshake P sk la ra pid w
              end
          | PData _ _ =>
              backoff <- flip ;;
              when (negb backoff) (handshake_init (Some sk) (Some ra) None)
          | PInvalid => ret tt
          end) n Q).
      { match goal with |- wp (if ?b then _ else _) _ _ => destruct b end; [apply wp_ret; exact (H n X)|].
        destruct (classify d) as [pkt ctl|pkt ctl|] eqn:Ec; [| | apply wp_ret; exact (H n X)].
        - apply wp_bnd. apply wp_lift. destruct (HandshakeProofs.handle_ok (c_hs P) pkt ctl) as (r & Er & Hin). exists r. split; [exact Er|].
          destruct r as [|er rt h|h].
          + apply wp_ret. exact (H n X).
          + apply wp_send_error; [destruct pid as [pid|]; [destruct Hp as (p & Hf & _); exists p; exact Hf | exact Logic.I] | exact Ha|]. intros n1 L1. apply H. eapply lk_ex; eassumption.
          + apply wp_bnd. apply wp_lift. destruct (view_ok pkt h Hin) as (w & Ew). exists w. split; [exact Ew|].
            apply wp_proto; [exact X | exact Hr | exact Hp | | exact H]. destruct sk as [k|o i]; [exact Logic.I|]. destruct Hk as [Hk1 Hk2].
            split; [exact Hk1|]. split; [exact Hk2|]. intros q key Hw Hq Ho Ek. apply (Hs q Hq Ho). destruct (handled_parsed _ _ _ _ Er) as (h0 & Ep & Eh & _).
            exists pkt, h0. split; [exact (classify_handshake _ _ _ Ec)|]. split; [exact Ep|]. destruct (view_values _ _ _ Ew) as (V & _). specialize (V key Hw).
            unfold value in *. rewrite <- Eh. rewrite Ek. exact V.
        - apply wp_bnd. apply wp_flip. intros b n1 E1 L1. assert (X1 : ex n1) by (eapply lk_ex; eassumption). apply wp_when; intros Eb; [|exact (H n1 X1)].
          apply wp_bnd. apply maintenance_lk. intros n2 E2 L2. apply wp_send_anon; [eapply alive_lk; [exact L2|]; eapply alive_lk; eassumption|].
          intros n3 L3. apply H. eapply lk_ex; [exact L3|]. eapply lk_ex; eassumption. }
      destruct pid as [pid|]; [|exact Hother]. destruct (classify d) as [pkt ctl|pkt ctl|]; try exact Hother. destruct can; [|exact Hother].
      destruct (Hcan eq_refl) as (p & Hf & He). eapply wp_handle_recv; [exact Hf | exact He | exact X|]. intros n1 X1 _. exact (H n1 X1). }
    destruct pid as [pid|].
    - destruct Hp as (p & Hf & Hpa). apply wp_bnd. eapply wp_rd; [exact Hf|]. apply wp_ret. apply Hrest. intros Eb.
      apply andb_prop in Eb. exists p. split; [exact Hf | apply Eb].
    - apply wp_ret. apply (Hrest false). discriminate. }
  destruct sk as [k|o i].
  - apply wp_ret. apply Hgo; [|exact Logic.I]. destruct (lookup_addr (n_peers n) ra) as [q|] eqn:E; [|exact Logic.I]. exact (lookup_found _ _ _ (x_ids _ _ X) E).
  - unfold alive_sk, sock_alive in Ha. destruct (find_id (n_peers n) o) as [p|] eqn:Hf; [|discriminate]. apply wp_bnd. eapply wp_rd; [exact Hf|]. apply wp_ret.
    destruct (addr_eqb (p_addr p) (Some ra)) eqn:Ea; [|apply wp_ret; exact (H n X)]. apply (Hgo (Some o)).
    + exists p. split; [exact Hf | apply addr_eqb_true; exact Ea].
    + split; [reflexivity|]. exists p. split; [exact Hf|]. destruct (p_sock p) as [[k|o' i']|] eqn:Es; try discriminate.
      destruct (e_sock _ _ (x_peers _ _ X _ _ Hf) _ _ Es) as [-> _]. pose proof (found_id _ _ _ Hf) as Eid.
      cbn [sock_eqb] in Ha. apply andb_prop in Ha. destruct Ha as [_ Ha]. apply N.eqb_eq in Ha. congruence.
Qed.

(** ** Timers *)
Lemma wp_send_handshake : forall pid ri n p (Q : bool -> node -> Prop), find_id (n_peers n) pid = Some p -> ex n ->
  (is_established p = false -> p_remotes p <> [] /\ exists i r, ri = Some i /\ nth_error (p_remotes p) i = Some r /\ (r_addrs r = [] \/ (r_cur r < length (r_addrs r))%nat)) ->
  (forall b n' p', find_id (n_peers n') pid = Some p' -> frame n n' -> ex n' -> kept p p' -> Q b n') -> wp (send_handshake P pid ri) n Q.
Proof.
  intros pid ri n p Q Hf X Hri H. apply wp_bnd. eapply wp_rd; [exact Hf|]. apply wp_bnd.
  assert (Hgo : forall n1 p1, find_id (n_peers n1) pid = Some p1 -> frame n n1 -> ex n1 -> kept p p1 ->
    wp (p <- rd pid ;;
    now <- gets n_now ;;
    match p_sock p, p_addr p with
    | Some sk, Some a =>
        if (negb (timed_out now (p_lh_to p)) && addr_eqb (p_addr p) (p_lh_addr p))%bool then ret false
        else
          wr pid (fun p => set_p_lh_to (now + MIN_HANDSHAKE_INTERVAL) (set_p_lh_addr (p_addr p) p)) ;;
          handshake_init (Some sk) (Some a) (Some pid) ;;
          ret true
    | _, _ => ret false
    end) n1 Q).
  { intros n1 p1 Hf1 F1 X1 K1. assert (Hend : forall b, Q b n1) by (intros b; eapply H; eassumption).
    apply wp_bnd. eapply wp_rd; [exact Hf1|]. apply wp_bnd. apply wp_gets. destruct (p_sock p1) as [sk|] eqn:Es; [|apply wp_ret; apply Hend].
    destruct (p_addr p1) as [a|] eqn:Ea; [|apply wp_ret; apply Hend]. destruct (_ && _)%bool; [apply wp_ret; apply Hend|].
    apply wp_bnd. eapply wp_wr_lk; [exact Hf1 | reflexivity|]. intros n2 Hf2 L2. apply wp_bnd. apply wp_bnd. apply maintenance_lk. intros n3 E3 L3.
    assert (L13 : lk n1 n3) by exact (lk_trans _ _ _ L2 L3).
    eapply wp_send; [eapply alive_lk; [exact L13|]; eapply alive_own; eassumption | rewrite E3; exact Hf2|]. intros n4 p4 L4 Hf4 _. apply wp_ret.
    assert (L14 : lk n1 n4) by exact (lk_trans _ _ _ L13 L4). destruct (lk_find _ _ _ _ L14 Hf1) as (p5 & Hf5 & E5). rewrite Hf4 in Hf5. injection Hf5 as <-.
    eapply H; [exact Hf4 | eapply frame_trans; [exact F1 | apply L14] | eapply lk_ex; eassumption | eapply kept_trans; [exact K1 | apply kept_core; exact E5]]. }
  destruct (is_established p) eqn:He; cbn [negb].
  - apply wp_ret. cbn [negb]. apply (Hgo n p); [exact Hf | apply frame_refl | exact X | apply kept_refl].
  - destruct (Hri eq_refl) as (Hne & i & r & -> & Hn & Hc). apply wp_bnd. eapply wp_rd_remote; [exact Hf | exact Hn|].
    destruct (r_addrs r) as [|a0 al] eqn:Er; [apply wp_ret; cbn [negb]; apply wp_ret; eapply H; [exact Hf | apply frame_refl | exact X | apply kept_refl]|].
    destruct Hc as [Hc|Hc]; [discriminate|]. destruct (nth_error (a0 :: al) (r_cur r)) as [a|] eqn:En.
    2:{ exfalso. apply nth_error_None in En. lia. }
    apply wp_bnd. eapply wp_claim; [exact Hf | exact X | exact He|]. intros b n1 p1 Hf1 F1 X1 _ K1. specialize (K1 He).
    assert (He1 : is_established p1 = false) by (apply is_est_false; apply is_est_false in He; destruct K1 as (_ & _ & -> & _); exact He).
    apply wp_bnd. eapply wp_reset_socket; [exact Hf1 | exact He1 | | exact X1|].
    { intros Z. apply Hne. eapply remotes_core; [|exact Z]. destruct K1 as (_ & _ & _ & _ & Y & _). exact Y. }
    intros n2 p2 Hf2 K2 _ _ C2 X2. apply wp_ret. cbn [negb]. eapply Hgo; [exact Hf2 | eapply frame_trans; [exact F1 | apply C2] | exact X2 | eapply kept_trans; eassumption].
Qed.

(** everything of a peer but its position in the list of remotes *)
Record expr (p : peer) : Prop := mk_expr {
  r_sock : forall o i, p_sock p = Some (SDyn o i) -> o = p_id p /\ p_remotes p <> [];
  r_est : p_state p = Established -> p_addr p <> None /\ p_sess p <> None /\ p_sock p <> None;
  r_dyn : p_conf p = CDynamic -> p_remotes p = [] /\ allow_verify P = true
}.
Lemma exp_expr : forall p, exp p -> expr p.
Proof. intros p [A B C D]. constructor; assumption. Qed.
Lemma expr_exp : forall p, expr p -> rem_ok p -> exp p.
Proof. intros p [A B D] R. constructor; try assumption. intros _. exact R. Qed.

Lemma wp_task_next : forall pid n0 n p (Q : unit -> node -> Prop), ex n0 -> ch (at_ pid) n0 n -> find_id (n_peers n) pid = Some p -> expr p -> p_remotes p <> [] ->
  (forall n', frame n0 n' -> ex n' -> Q tt n') -> wp (task_handshake_next P pid) n Q.
Proof.
  intros pid n0 n p Q X C Hf Xp Hne H. apply wp_bnd.
  eapply wp_wr; [exact Hf | intros q; destruct (p_next_remote q) as [i|]; [destruct (Nat.ltb i _)|]; reflexivity|]. intros n1 Hf1 C1.
  match type of Hf1 with _ = Some ?x => set (p1 := x) in *; assert (Ep : exists i, p_next_remote p1 = Some i /\ (i < length (p_remotes p))%nat /\ p1 = set_p_next_remote (Some i) p) end.
  { unfold p1. assert (L0 : (0 < length (p_remotes p))%nat) by (destruct (p_remotes p); [contradiction | cbn; lia]).
    destruct (p_next_remote p) as [i|] eqn:En; [|exists 0%nat; repeat split; exact L0]. destruct (Nat.ltb_spec i (length (p_remotes p))) as [Hi|Hi].
    - exists i. split; [exact En|]. split; [exact Hi|]. rewrite <- En. destruct p; reflexivity.
    - exists 0%nat. repeat split. exact L0. }
  clearbody p1. destruct Ep as (i & En & Hi & ->). apply wp_bnd. eapply wp_rd; [exact Hf1|]. rewrite En.
  destruct (nth_error (p_remotes p) i) as [r|] eqn:Er; [|exfalso; apply nth_error_None in Er; lia].
  apply wp_bnd. eapply wp_rd_remote; [exact Hf1 | exact Er|]. apply wp_bnd. eapply wp_wr; [exact Hf1 | intros q; reflexivity|]. intros n2 Hf2 C2.
  set (p2 := set_remote i (set_r_cur 0) (set_p_next_remote (Some i) p)) in *.
  assert (Hn2 : nth_error (p_remotes p2) i = Some (set_r_cur 0 r)).
  { unfold p2. rewrite nth_set_remote, Nat.eqb_refl. cbn [p_remotes set_p_next_remote]. rewrite Er. reflexivity. }
  assert (X2 : ex n2).
  { eapply ch1_ex; [eapply ch_trans; [exact C|]; eapply ch_trans; eassumption | exact X | exact Hf2|]. destruct Xp as [A B D]. apply expr_exp.
    - assert (Hne2 : p_remotes p2 <> []) by (intros Z; rewrite Z in Hn2; destruct i; discriminate). constructor.
      + intros o j E. destruct (A o j E) as [Y1 Y2]. split; [exact Y1 | exact Hne2].
      + exact B.
      + intros E. destruct (D E). contradiction.
    - intros j _ Hj. injection Hj as <-. exists (set_r_cur 0 r). split; [exact Hn2|]. cbn. destruct (r_addrs r); [left; reflexivity | right; cbn; lia]. }
  assert (F2 : frame n0 n2) by (eapply frame_trans; [apply C|]; eapply frame_trans; [apply C1 | apply C2]).
  destruct (r_host r); [|apply wp_ret; exact (H n2 F2 X2)]. eapply wp_resolve; [exact Hf2 | | exact Hn2|].
  - cbn. intros E. destruct (r_dyn _ Xp E). contradiction.
  - intros n3 p3 _ L3. apply H; [eapply frame_trans; [exact F2 | apply L3] | eapply lk_ex; eassumption].
Qed.

Lemma wp_task_handshake : forall pid n p (Q : unit -> node -> Prop), find_id (n_peers n) pid = Some p -> ex n -> rem_ok p ->
  p_remotes p <> [] \/ is_established p = true ->
  (forall n', frame n n' -> ex n' -> Q tt n') -> wp (task_handshake P pid) n Q.
Proof.
  intros pid n p Q Hf X Hr Hok H. apply wp_bnd. apply wp_rand. intros d n1 E1 L1 _. apply wp_bnd. eapply wp_set_next; [rewrite E1; exact Hf|]. intros n2 Hf2 L2.
  assert (L : lk n n2) by exact (lk_trans _ _ _ L1 L2). assert (X2 : ex n2) by (eapply lk_ex; eassumption). assert (F2 : frame n n2) by apply L.
  remember (set_p_next_hs (Some (n_now n1 + d)) p) as p2 eqn:Ep.
  assert (Hr2 : rem_ok p2) by (subst p2; exact Hr). assert (Hok2 : p_remotes p2 <> [] \/ is_established p2 = true) by (subst p2; exact Hok). clear Ep.
  apply wp_bnd. eapply wp_rd; [exact Hf2|]. apply wp_bnd. apply wp_gets. destruct (negb (may_connect P (n_peers n2) p2)).
  { eapply wp_wr; [exact Hf2 | intros q; reflexivity|]. intros n3 Hf3 C3. apply H; [eapply frame_trans; [exact F2 | apply C3]|].
    eapply ch1_ex; [exact C3 | exact X2 | exact Hf3|]. apply expr_exp; [|intros i _ Hi; discriminate]. destruct (exp_expr _ (x_peers _ _ X2 _ _ Hf2)) as [A B D]. constructor; assumption. }
  assert (Hsend : forall ri, ri = p_next_remote p2 -> (ri = None -> is_established p2 = true) ->
    wp (send_handshake P pid ri ;;
        p <- rd pid ;;
        if is_established p then ret tt
        else
          wr pid (set_p_state Handshaking) ;;
          match ri with
          | None => undefined
          | Some i =>
              r <- rd_remote pid i ;;
              wr pid (set_remote i (set_r_cur (S (r_cur r)))) ;;
              if Nat.ltb (S (r_cur r)) (length (r_addrs r)) then ret tt
              else
                wr pid (fun p => set_p_next_remote (match p_next_remote p with Some i => Some (S i) | None => Some 0%nat end) p) ;;
                task_handshake_next P pid
          end) n2 Q).
  { intros ri Eri Hnone. apply wp_bnd. eapply wp_send_handshake; [exact Hf2 | exact X2 | |].
    - intros He. destruct Hok2 as [Hne|]; [|congruence]. split; [exact Hne|]. destruct ri as [i|]; [|specialize (Hnone eq_refl); congruence].
      destruct (Hr2 i Hne (eq_sym Eri)) as (r & A & B). exists i, r. repeat split; assumption.
    - intros b n3 p3 Hf3 F3 X3 K3. assert (F03 : frame n n3) by (eapply frame_trans; eassumption).
      apply wp_bnd. eapply wp_rd; [exact Hf3|]. destruct (is_established p3) eqn:He3; [apply wp_ret; exact (H n3 F03 X3)|].
      destruct K3 as (K1 & K2 & K3 & K4 & K5 & K6).
      assert (He2 : is_established p2 = false) by (apply is_est_false; apply is_est_false in He3; congruence).
      destruct Hok2 as [Hne2|]; [|congruence]. assert (Hne3 : p_remotes p3 <> []) by (intros Z; apply Hne2; eapply remotes_core; [exact K5 | exact Z]).
      destruct ri as [i|]; [|specialize (Hnone eq_refl); congruence].
      assert (Hr3 : rem_ok p3) by (eapply rem_ok_core; eassumption).
      destruct (Hr3 i Hne3 ltac:(congruence)) as (r & Hn & Hc).
      pose proof (exp_expr _ (x_peers _ _ X3 _ _ Hf3)) as [A3 B3 D3].
      apply wp_bnd. eapply wp_wr; [exact Hf3 | intros q; reflexivity|]. intros n4 Hf4 C4. apply wp_bnd.
      eapply wp_rd_remote; [exact Hf4 | exact Hn|]. apply wp_bnd. eapply wp_wr; [exact Hf4 | intros q; reflexivity|]. intros n5 Hf5 C5.
      set (p5 := set_remote i (set_r_cur (S (r_cur r))) (set_p_state Handshaking p3)) in *.
      assert (C35 : ch (at_ pid) n3 n5) by (eapply ch_trans; eassumption).
      assert (Hn5 : nth_error (p_remotes p5) i = Some (set_r_cur (S (r_cur r)) r)).
      { unfold p5. rewrite nth_set_remote, Nat.eqb_refl. cbn [p_remotes set_p_state]. rewrite Hn. reflexivity. }
      assert (Hne5 : p_remotes p5 <> []) by (intros Z; rewrite Z in Hn5; destruct i; discriminate).
      assert (Xp5 : expr p5).
      { constructor; cbn.
        - intros o j E. split; [exact (proj1 (A3 o j E)) | exact Hne5].
        - discriminate.
        - intros E. destruct (D3 E). contradiction. }
      destruct (Nat.ltb_spec (S (r_cur r)) (length (r_addrs r))) as [Hlt|Hge].
      + apply wp_ret. apply H; [eapply frame_trans; [exact F03 | apply C35]|]. eapply ch1_ex; [exact C35 | exact X3 | exact Hf5|].
        apply expr_exp; [exact Xp5|]. intros j _ Hj. assert (j = i) by (cbn in Hj; congruence). subst j. exists (set_r_cur (S (r_cur r)) r). split; [exact Hn5|]. right. exact Hlt.
      + apply wp_bnd. eapply wp_wr; [exact Hf5 | intros q; reflexivity|]. intros n6 Hf6 C6.
        eapply (wp_task_next pid n3 n6); [exact X3 | eapply ch_trans; eassumption | exact Hf6 | | exact Hne5|].
        * destruct Xp5 as [A5 B5 D5]. constructor; assumption.
        * intros n7 F7 X7. apply H; [eapply frame_trans; [exact F03 | exact F7] | exact X7]. }
  destruct (p_next_remote p2) as [i|] eqn:En.
  - apply (Hsend (Some i)); [reflexivity | discriminate].
  - destruct (is_established p2) eqn:He2; [apply (Hsend None); reflexivity|].
    destruct Hok2 as [Hne|]; [|congruence]. eapply (wp_task_next pid n2 n2); [exact X2 | apply ch_refl | exact Hf2 | apply exp_expr; exact (x_peers _ _ X2 _ _ Hf2) | exact Hne|].
    intros n3 F3 X3. apply H; [eapply frame_trans; eassumption | exact X3].
Qed.

Lemma wp_handle_task : forall pid n p (Q : unit -> node -> Prop), find_id (n_peers n) pid = Some p -> ex n -> rem_ok p ->
  (p_remotes p = [] -> p_state p <> Established -> ~ handshake_due (n_now n) p) ->
  (forall n', ex n' -> Q tt n') -> wp (handle_task P pid) n Q.
Proof.
  intros pid n p Q Hf X Hr Hok H. apply wp_bnd. eapply wp_wr_lk; [exact Hf | reflexivity|]. intros n1 Hf1 L1. assert (X1 : ex n1) by (eapply lk_ex; eassumption).
  assert (Hnow : n_now n1 = n_now n) by apply (fm_now _ _ (proj1 L1)). rewrite <- Hnow in Hok.
  remember (set_p_task None p) as p1 eqn:Ep. assert (Hr1 : rem_ok p1) by (subst p1; exact Hr).
  assert (Hok1 : p_remotes p1 = [] -> p_state p1 <> Established -> ~ handshake_due (n_now n1) p1) by (subst p1; exact Hok). clear Ep Hok Hr.
  apply wp_bnd. eapply wp_rd; [exact Hf1|]. apply wp_bnd. apply wp_gets. destruct (otimed_out (n_now n1) (p_reset_to p1)).
  { destruct (is_dynamic p1); [eapply wp_peer_delete; [exact Hf1 | exact X1|]; intros n2 X2 _ _ _; exact (H n2 X2)|].
    eapply wp_peer_reset; [exact Hf1 | exact X1|]. intros n2 p2 _ _ _ X2. exact (H n2 X2). }
  apply wp_bnd.
  assert (Hgo : forall n2 p2, find_id (n_peers n2) pid = Some p2 -> ex n2 -> n_now n2 = n_now n1 ->
     (p_remotes p2 = [] -> p_state p2 <> Established -> ~ handshake_due (n_now n1) p2) -> rem_ok p2 \/ p_next_hs p2 = None ->
     wp (p <- rd pid ;;
    when (otimed_out (n_now n1) (p_next_hs p)) (task_handshake P pid) ;;
    schedule_peer_task pid) n2 Q).
  { intros n2 p2 Hf2 X2 En2 Hok2 Hr2. apply wp_bnd. eapply wp_rd; [exact Hf2|]. apply wp_bnd.
    assert (Hend : forall n3, frame n2 n3 -> ex n3 -> wp (schedule_peer_task pid) n3 Q).
    { intros n3 F3 X3. destruct (frame_has _ _ _ _ F3 Hf2) as (p3 & Hf3). eapply wp_schedule; [exact Hf3|]. intros n4 _ L4. apply H. eapply lk_ex; eassumption. }
    apply wp_when; intros Ed; [|apply Hend; [apply frame_refl | exact X2]].
    assert (Hdue : handshake_due (n_now n1) p2).
    { unfold otimed_out in Ed. destruct (p_next_hs p2) as [t|] eqn:Et; [|discriminate]. exists t. split; [exact Et|]. unfold timed_out in Ed. lia. }
    destruct Hr2 as [Hr2 | Z]; [|destruct Hdue as (t & Y & _); congruence].
    eapply wp_task_handshake; [exact Hf2 | exact X2 | exact Hr2 | | exact Hend].
    destruct (p_remotes p2) eqn:Er; [|left; discriminate]. right. destruct (is_established p2) eqn:He; [reflexivity|]. exfalso. apply is_est_false in He. exact (Hok2 eq_refl He Hdue). }
  apply wp_when; intros Ek; [|apply (Hgo n1 p1 Hf1 X1 eq_refl Hok1); left; exact Hr1].
  apply wp_bnd. eapply wp_protocol_send; [exact Hf1 | exact X1|]. intros n2 p2 Hf2 C2 X2 Hcase Hsame.
  eapply wp_clear; [exact Hf2|]. intros n3 p3 Hf3 L3 En3. destruct (lk_find _ _ _ _ L3 Hf2) as (p3' & Y & E3). rewrite Hf3 in Y. injection Y as <-.
  apply core_inv in E3. destruct E3 as (_ & _ & W3 & _ & _ & _ & W7 & W8).
  assert (Enow : n_now n3 = n_now n1) by (rewrite (fm_now _ _ (proj1 L3)); apply (fm_now _ _ (proj1 C2))).
  apply (Hgo n3 p3 Hf3 (lk_ex _ _ _ L3 X2) Enow).
  - intros Hrem Hst Hdue. assert (Hrem2 : p_remotes p2 = []) by (eapply remotes_core; eassumption). rewrite W3 in Hst.
    assert (Hdue2 : handshake_due (n_now n1) p2) by (destruct Hdue as (t & A & B); exists t; split; [congruence | exact B]).
    destruct Hcase as [(_ & _ & _ & F4 & F5 & _) | Ec].
    + destruct Hdue2 as (t & A & _). rewrite F5 in A; [discriminate | apply F4; exact Hrem2].
    + pose proof (core_inv _ _ Ec) as (_ & _ & V3 & _). assert (Hest : is_established p1 = false) by (apply is_est_false; congruence).
      rewrite (Hsame Hest) in *. exact (Hok1 Hrem2 Hst Hdue2).
  - destruct Hcase as [(_ & _ & _ & _ & _ & F6) | Ec].
    + destruct F6 as [F6|F6]; [left; eapply rem_ok_core; eassumption | right; congruence].
    + left. apply core_inv in Ec. destruct Ec as (_ & _ & _ & _ & _ & _ & V7 & V8). eapply rem_ok_core; [rewrite W7; exact V7 | congruence | exact Hr1].
Qed.

Lemma wp_resolve_return : forall pid i addrs n (Q : unit -> node -> Prop), ex n ->
  (forall p, find_id (n_peers n) pid = Some p -> is_dynamic p = false /\ (i < length (p_remotes p))%nat) ->
  (forall n', ex n' -> Q tt n') -> wp (resolve_return P pid i addrs) n Q.
Proof.
  intros pid i addrs n Q X Hj H. apply wp_bnd. apply wp_gets. destruct (find_id (n_peers n) pid) as [p|] eqn:Hf; [|apply wp_ret; exact (H n X)].
  destruct (negb (is_enabled p)); [apply wp_ret; exact (H n X)|]. destruct (Hj p eq_refl) as [Hd Hi]. rewrite Hd.
  destruct (nth_error (p_remotes p) i) as [r|] eqn:Er; [|exfalso; apply nth_error_None in Er; lia].
  pose proof (x_peers _ _ X _ _ Hf) as [A B C D].
  apply wp_bnd. eapply wp_rd_remote; [exact Hf | exact Er|]. apply wp_bnd. eapply wp_wr; [exact Hf | intros q; reflexivity|]. intros n1 Hf1 C1.
  set (p1 := set_remote i (set_r_addrs addrs) p) in *.
  assert (Hnil : p_remotes p1 = [] -> p_remotes p = []).
  { intros Z. pose proof (length_set_remote p i (set_r_addrs addrs)) as Y. fold p1 in Y. rewrite Z in Y. destruct (p_remotes p); [reflexivity | discriminate]. }
  assert (Hrem : p_state p <> Inactive -> rem_ok p1).
  { intros Hs j Hne Hnj. assert (Hnep : p_remotes p <> []) by (intros Z; rewrite Z in Hi; cbn in Hi; lia).
    destruct (C Hs j Hnep Hnj) as (r' & E' & Hc'). unfold p1. rewrite nth_set_remote. destruct (Nat.eqb_spec j i) as [->|Hji].
    - rewrite Er. exists (set_r_addrs addrs r). split; [reflexivity|]. cbn. destruct addrs; [left; reflexivity | right; cbn; lia].
    - exists r'. split; assumption. }
  assert (Xp1 : exp p1).
  { constructor.
    - intros o j E. destruct (A o j E) as [Y1 Y2]. split; [exact Y1 | intros Z; exact (Y2 (Hnil Z))].
    - exact B.
    - exact Hrem.
    - intros E. apply is_dyn_true in E. change (is_dynamic p = true) in E. congruence. }
  assert (X1 : ex n1) by (eapply ch1_ex; eassumption).
  destruct (p_state p) eqn:Es; try (apply wp_ret; exact (H n1 X1)).
  eapply wp_init_handshake; [exact Hf1|]. intros n2 p2 Hf2 C2 E2. apply H. eapply ch1_ex; [exact C2 | exact X1 | exact Hf2|]. eapply exp_core; [exact E2|].
  destruct Xp1 as [A1 B1 D1 E1]. constructor; try assumption; [discriminate|]. intros _. apply Hrem. congruence.
Qed.
End Safe.
