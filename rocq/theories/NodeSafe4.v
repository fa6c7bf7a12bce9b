(** Weakest preconditions: handshakes *)
From Verif Require Import Base BufferModel NonceModel MethodModel HandshakeModel HandshakeSpec NodeModel NodeSteps NodeWf NodeSafe NodeSafe2 NodeSafe3.
From Verif Require HandshakeProofs.
From Coq Require Import Lia ZifyBool ZifyNat ZifyN Sorted.
Local Open Scope Z_scope.

(** ** The fields of a handshake can be read *)
Lemma fld_ok : forall pkt h t n, records_inside pkt h -> (1 <= n)%nat -> exists x, fld pkt h t n = Ok x.
Proof.
  intros pkt h t n Hi Hn. unfold fld. destruct (has_field h t n) eqn:E; [|eexists; reflexivity]. unfold has_field in E. apply Nat.eqb_eq in E.
  destruct (HandshakeProofs.rec_read_ok pkt h t n Hi (HandshakeProofs.rec_len_present h t ltac:(lia)) ltac:(lia)) as (d & -> & _). eexists. reflexivity.
Qed.
Lemma fld_any_ok : forall pkt h t, records_inside pkt h -> exists x, fld_any pkt h t = Ok x.
Proof.
  intros pkt h t Hi. unfold fld_any. destruct (rec_present h t) eqn:E; [|eexists; reflexivity].
  destruct (HandshakeProofs.rec_read_ok pkt h t (rec_len h t) Hi E ltac:(lia)) as (d & -> & _). eexists. reflexivity.
Qed.
Lemma view_ok : forall pkt h, records_inside pkt h -> exists w, view pkt h = Ok w.
Proof.
  intros pkt h Hi. unfold view.
  assert (K : (1 <= KEY_LEN)%nat) by (unfold KEY_LEN; lia).
  destruct (fld_ok pkt h R_SENDER_KEY KEY_LEN Hi K) as (x1 & ->). cbn [bind].
  destruct (fld_ok pkt h R_RECIPIENT_KEY KEY_LEN Hi K) as (x2 & ->). cbn [bind].
  destruct (fld_ok pkt h R_SENDER_HANDSHAKE_KEY KEY_LEN Hi K) as (x3 & ->). cbn [bind].
  destruct (fld_ok pkt h R_RECIPIENT_HANDSHAKE_KEY KEY_LEN Hi K) as (x4 & ->). cbn [bind].
  destruct (fld_ok pkt h R_TLV_MAC KEY_LEN Hi K) as (x5 & ->). cbn [bind]. cbv zeta.
  assert (E : exists x, (if Nat.eqb (rec_len h R_MTU) 2 then do v <- as_uint16 pkt h R_MTU; Ok (Some v) else Ok None) = Ok x).
  { destruct (Nat.eqb_spec (rec_len h R_MTU) 2) as [E|E]; [|eexists; reflexivity]. unfold as_uint16.
    destruct (HandshakeProofs.rec_read_ok pkt h R_MTU 2 Hi (HandshakeProofs.rec_len_present h R_MTU ltac:(lia)) ltac:(lia)) as (d & -> & _). eexists. reflexivity. }
  destruct E as (x6 & ->). cbn [bind].
  destruct (fld_any_ok pkt h R_METHOD_NAME Hi) as (x7 & ->). cbn [bind].
  destruct (fld_any_ok pkt h R_METHOD_LIST Hi) as (x8 & ->). cbn [bind]. eexists. reflexivity.
Qed.

Section Safe.
Variable P : params.
Notation ex := (ex P).
Notation exp := (exp P).

(** ** Sessions *)
Lemma core_superseded : forall now m p, core (superseded now m p) = core p.
Proof. intros now m p. unsup. reflexivity. Qed.

Lemma wp_new_session : forall pid method ini compat hk salt sigma serial src n p (Q : bool -> node -> Prop), find_id (n_peers n) pid = Some p -> ex n ->
  (forall n', lk n n' -> Q false n') ->
  (forall n' p' s, find_id (n_peers n') pid = Some p' -> core p' = core (set_p_sess (Some s) p) -> p_iface p' = p_iface p -> ch (at_ pid) n n' -> ex n' -> Q true n') ->
  wp (new_session P pid method ini compat hk salt sigma serial src) n Q.
Proof.
  intros pid method ini compat hk salt sigma serial src n p Q Hf X H0 H1. pose proof (x_peers _ _ X _ _ Hf) as Xp.
  apply wp_bnd. apply wp_flip. intros failed n1 E1 L1. destruct failed; [apply wp_ret; exact (H0 n1 L1)|].
  apply wp_bnd. apply wp_gets. apply wp_bnd. apply wp_rand. intros rnd n2 E2 L2 _. apply wp_bnd. apply wp_gets. apply wp_bnd. apply wp_modn. cbv zeta.
  set (n3 := set_n_next_sid (n_next_sid n2 + 1)%N n2).
  assert (L3 : lk n n3) by (eapply lk_trans; [exact L1|]; eapply lk_trans; [exact L2|]; apply same_peers_lk; reflexivity).
  assert (Hf3 : find_id (n_peers n3) pid = Some p) by (cbn; rewrite E2, E1; exact Hf). clearbody n3.
  apply wp_bnd. eapply wp_rd; [exact Hf3|]. apply wp_bnd. unfold supersede_session. apply wp_bnd. apply wp_gets.
  eapply wp_wr_lk; [exact Hf3 | intros q; apply core_superseded|]. intros n4 Hf4 L4.
  apply wp_bnd. eapply wp_wr; [exact Hf4 | intros q; reflexivity|]. intros n5 Hf5 C5. apply wp_bnd. apply wp_emit. intros n6 E6 L6. apply wp_ret.
  match type of Hf5 with _ = Some (set_p_serial _ (set_p_sess (Some ?s0) (superseded ?a ?b _))) => set (s := s0) in *; set (a0 := a) in * end.
  assert (Ec : core (set_p_serial serial (set_p_sess (Some s) (superseded a0 method p))) = core (set_p_sess (Some s) p)) by (unsup; reflexivity).
  assert (C : ch (at_ pid) n n6).
  { eapply ch_trans; [apply lk_ch; exact L3|]. eapply ch_trans; [apply lk_ch; exact L4|]. eapply ch_trans; [exact C5 | apply lk_ch; exact L6]. }
  eapply H1; [rewrite E6; exact Hf5 | exact Ec | unsup; reflexivity | exact C|].
  eapply ch1_ex; [exact C | exact X | rewrite E6; exact Hf5|]. eapply exp_core; [exact Ec|]. destruct Xp as [A1 A2 A3 A4]. constructor; cbn; try assumption.
  intros E. destruct (A2 E) as (Y1 & _ & Y3). repeat split; try assumption. discriminate.
Qed.

Lemma wp_set_established : forall pid n p (Q : bool -> node -> Prop), find_id (n_peers n) pid = Some p -> ex n ->
  p_addr p <> None -> p_sess p <> None -> p_sock p <> None -> rem_ok p ->
  (forall b n' p', find_id (n_peers n') pid = Some p' -> kept p (set_p_state (p_state p) p') -> p_sock p' = p_sock p -> p_addr p' = p_addr p ->
     ch (at_ pid) n n' -> ex n' -> Q b n') -> wp (set_established pid) n Q.
Proof.
  intros pid n p Q Hf X Ha Hs Hk Hr H. pose proof (x_peers _ _ X _ _ Hf) as Xp. apply wp_bnd. eapply wp_rd; [exact Hf|].
  apply wp_bnd.
  assert (Hgo : forall ok n1 p1, find_id (n_peers n1) pid = Some p1 -> core p1 = core p -> lk n n1 ->
     wp (if negb ok then ret false
         else if is_established p then ret true
         else
           wr pid (set_p_state Established) ;;
           peer_seen pid ;;
           clear_keepalive pid ;;
           schedule_peer_task pid ;;
           emit (OUp pid) ;;
           ret true) n1 Q).
  { intros ok n1 p1 Hf1 Ec L1. assert (X1 : ex n1) by (eapply lk_ex; eassumption). pose proof (core_inv _ _ Ec) as (W1 & W2 & W3 & W4 & W5 & W6 & W7 & W8).
    assert (Hend : forall b, Q b n1).
    { intros b. eapply H; [exact Hf1 | | exact W4 | exact W5 | apply lk_ch; exact L1 | exact X1]. unfold kept. cbn. repeat split; assumption. }
    destruct ok; cbn [negb]; [|apply wp_ret; apply Hend]. destruct (is_established p); [apply wp_ret; apply Hend|].
    apply wp_bnd. eapply wp_wr; [exact Hf1 | intros q; reflexivity|]. intros n2 Hf2 C2.
    apply wp_bnd. eapply wp_seen; [exact Hf2|]. intros n3 p3 Hf3 L3 _. apply wp_bnd. eapply wp_clear; [exact Hf3|]. intros n4 p4 Hf4 L4 _.
    apply wp_bnd. eapply wp_schedule; [exact Hf4|]. intros n5 Hf5 L5. apply wp_bnd. apply wp_emit. intros n6 E6 L6. apply wp_ret.
    assert (L26 : lk n2 n6) by (eapply lk_trans; [exact L3|]; eapply lk_trans; [exact L4|]; eapply lk_trans; eassumption).
    destruct (lk_find _ _ _ _ L26 Hf2) as (p6 & Hf6 & E6c). pose proof (core_inv _ _ E6c) as (V1 & V2 & V3 & V4 & V5 & V6 & V7 & V8).
    cbn in V1, V2, V3, V4, V5, V6, V7, V8.
    assert (C : ch (at_ pid) n n6) by (eapply ch_trans; [apply lk_ch; exact L1|]; eapply ch_trans; [exact C2 | apply lk_ch; exact L26]).
    eapply H; [exact Hf6 | | congruence | congruence | exact C |].
    - unfold kept. cbn. repeat split; congruence.
    - eapply ch1_ex; [exact C | exact X | exact Hf6|]. destruct Xp as [A1 A2 A3 A4]. constructor.
      + intros o i E. rewrite V4, W4 in E. destruct (A1 o i E) as [B1 B2]. split; [congruence|]. intros Z. apply B2. eapply remotes_core; [|exact Z]. congruence.
      + intros _. rewrite V4, V5, W4, W5. repeat split; try assumption. intros Z. rewrite Z in V6. cbn in V6. rewrite W6 in V6. destruct (p_sess p); [discriminate | congruence].
      + intros _. eapply rem_ok_core; [rewrite V7; exact W7 | congruence | exact Hr].
      + intros E. rewrite V2, W2 in E. destruct (A4 E) as [B1 B2]. split; [|exact B2]. eapply remotes_core; [|exact B1]. congruence. }
  destruct (p_iface p).
  - apply wp_ret. eapply Hgo; [exact Hf | reflexivity | apply ch_refl].
  - apply wp_bnd. apply wp_flip. intros ok n1 E1 L1. apply wp_bnd. apply wp_when; intros Eo.
    + eapply wp_wr_lk; [rewrite E1; exact Hf | reflexivity|]. intros n2 Hf2 L2. apply wp_ret. eapply Hgo; [exact Hf2 | reflexivity | eapply lk_trans; eassumption].
    + apply wp_ret. eapply Hgo; [rewrite E1; exact Hf | reflexivity | exact L1].
Qed.

Lemma wp_establish : forall pid method sk la ra ini compat hk salt sigma serial n p (Q : bool -> node -> Prop), find_id (n_peers n) pid = Some p -> ex n ->
  sk_for n pid sk -> rem_ok p ->
  (forall b n', frame n n' -> ex n' -> (b = true -> sk_for n' pid sk) -> Q b n') -> wp (establish P pid method sk la ra ini compat hk salt sigma serial) n Q.
Proof.
  intros pid method sk la ra ini compat hk salt sigma serial n p Q Hf X Hsk Hr H. apply wp_bnd. eapply wp_rd; [exact Hf|].
  destruct (serial <=? p_serial p)%N; [apply wp_ret; apply H; [apply frame_refl | exact X | discriminate]|].
  assert (Hreset : forall n1, frame n n1 -> ex n1 -> wp (peer_reset P pid ;; ret false) n1 Q).
  { intros n1 F1 X1. destruct (frame_has _ _ _ _ F1 Hf) as (p1 & Hf1). apply wp_bnd. eapply wp_peer_reset; [exact Hf1 | exact X1|].
    intros n2 p2 _ _ C2 X2. apply wp_ret. apply H; [eapply frame_trans; [exact F1 | apply C2] | exact X2 | discriminate]. }
  apply wp_bnd. eapply wp_claim; [exact Hf | exact X | exact Hsk|]. intros b n1 p1 Hf1 F1 X1 K1 _.
  destruct b; cbn [negb]; [|apply Hreset; assumption]. destruct (K1 eq_refl) as (Kp & A1 & S1). clear K1.
  apply wp_bnd. eapply wp_new_session; [exact Hf1 | exact X1 | |].
  { intros n2 L2. cbn [negb]. apply Hreset; [eapply frame_trans; [exact F1 | apply L2] | eapply lk_ex; eassumption]. }
  intros n2 p2 s Hf2 E2 _ C2 X2. cbn [negb]. apply core_inv in E2. destruct E2 as (W1 & W2 & W3 & W4 & W5 & W6 & W7 & W8). cbn in W1, W2, W3, W4, W5, W6, W7, W8.
  destruct Kp as (V1 & V2 & V3 & V4 & V5 & V6).
  assert (F2 : frame n n2) by (eapply frame_trans; [exact F1 | apply C2]).
  assert (Hs2 : p_sess p2 <> None) by (intros Z; rewrite Z in W6; discriminate).
  apply wp_bnd. eapply wp_set_established; [exact Hf2 | exact X2 | rewrite W5, A1; discriminate | exact Hs2 | rewrite W4, S1; discriminate | |].
  { eapply rem_ok_core; [|  | exact Hr]; congruence. }
  intros b n3 p3 Hf3 Kp3 S3 A3 C3 X3. assert (F3 : frame n n3) by (eapply frame_trans; [exact F2 | apply C3]).
  destruct b; cbn [negb]; [|apply Hreset; assumption].
  destruct Kp3 as (_ & _ & _ & U4 & _ & _). cbn in U4.
  apply wp_bnd. apply wp_gets. apply wp_bnd. eapply wp_wr_lk; [exact Hf3 | reflexivity|]. intros n4 Hf4 L4.
  assert (X4 : ex n4) by (eapply lk_ex; eassumption).
  assert (Hk4 : forall n5, lk n4 n5 -> wp (ret true) n5 Q).
  { intros n5 L5. apply wp_ret. apply H.
    - eapply frame_trans; [exact F3|]. eapply frame_trans; [apply L4 | apply L5].
    - eapply lk_ex; eassumption.
    - intros _. eapply sk_for_lk; [exact L5|]. destruct sk as [k|o i]; [exact Logic.I|]. eexists. split; [exact Hf4|]. cbn. congruence. }
  apply wp_bnd. destruct ini.
  - eapply wp_schedule_default; [exact Hf4|]. intros n5 p5 _ L5 _. apply Hk4. exact L5.
  - eapply wp_session_send; [exact Hf4 | | | | exact X4 |].
    + cbn. intros Z. rewrite Z in U4. destruct (p_sess p2); [discriminate | congruence].
    + cbn. rewrite S3, W4, S1. discriminate.
    + cbn. rewrite A3, W5, A1. discriminate.
    + intros n5 p5 L5 _ _. apply Hk4. exact L5.
Qed.

(** ** Answers *)
Lemma wp_update_shared : forall pid serial hk n p (Q : option hcache -> node -> Prop), find_id (n_peers n) pid = Some p ->
  (forall c n', lk n n' -> Q c n') -> wp (update_shared P pid serial hk) n Q.
Proof.
  intros pid serial hk n p Q Hf H. apply wp_bnd. eapply wp_rd; [exact Hf|]. cbv zeta.
  assert (Hc : wp match c_shared P false serial (p_key p) hk with
    | None => ret None
    | Some (sigma, key) => wr pid (set_p_cache (Some (mk_hcache serial hk sigma key))) ;; ret (Some (mk_hcache serial hk sigma key))
    end n Q).
  { destruct (c_shared P false serial (p_key p) hk) as [[sigma key]|]; [|apply wp_ret; apply H; apply ch_refl].
    apply wp_bnd. eapply wp_wr_lk; [exact Hf | reflexivity|]. intros n1 _ L1. apply wp_ret. apply H. exact L1. }
  destruct (p_cache p) as [c|]; [|exact Hc]. destruct (_ && _)%bool; [|exact Hc]. apply wp_ret. apply H. apply ch_refl.
Qed.
Lemma wp_respond : forall sk ra pid hk n p (Q : unit -> node -> Prop), find_id (n_peers n) pid = Some p -> ex n -> alive_sk n sk ->
  (forall n', lk n n' -> Q tt n') -> wp (respond_handshake P sk ra pid hk) n Q.
Proof.
  intros sk ra pid hk n p Q Hf X Ha H. apply wp_bnd. apply wp_gets. apply wp_bnd. eapply wp_update_shared; [exact Hf|]. intros c n1 L1.
  destruct c; [|apply wp_ret; apply H; exact L1]. destruct (lk_find _ _ _ _ L1 Hf) as (p1 & Hf1 & _).
  apply wp_bnd. eapply wp_rd; [exact Hf1|]. eapply wp_send; [eapply alive_lk; eassumption | exact Hf1|]. intros n2 p2 L2 _ _. apply H. eapply lk_trans; eassumption.
Qed.
Lemma wp_send_error : forall sk ra pid n (Q : unit -> node -> Prop), match pid with Some pid => exists p, find_id (n_peers n) pid = Some p | None => True end ->
  alive_sk n sk -> (forall n', lk n n' -> Q tt n') -> wp (send_error sk ra pid) n Q.
Proof.
  intros sk ra pid n Q Hf Ha H. unfold send_error. destruct pid as [pid|].
  - destruct Hf as (p & Hf). eapply wp_send; [exact Ha | exact Hf|]. intros n1 p1 L1 _ _. apply H. exact L1.
  - apply wp_send_anon; [exact Ha | exact H].
Qed.

Lemma wp_finish : forall sk la ra pid serial hk mac tlv0 w n p (Q : unit -> node -> Prop), find_id (n_peers n) pid = Some p -> ex n ->
  sk_for n pid sk -> rem_ok p -> (forall n', ex n' -> Q tt n') -> wp (finish_handshake P sk la ra pid serial hk mac tlv0 w) n Q.
Proof.
  intros sk la ra pid serial hk mac tlv0 w n p Q Hf X Hsk Hr H. apply wp_bnd. eapply wp_rd; [exact Hf|].
  destruct (get_method_by_name_list (c_methods P (p_group p)) (w_method_list w)) as [method|].
  2:{ apply wp_send_error; [exists p; exact Hf | exact (sk_for_alive _ _ _ _ X Hsk) |]. intros n1 L1. apply H. eapply lk_ex; eassumption. }
  destruct (c_shared P true serial (p_key p) hk) as [[sigma key]|]; [|apply wp_ret; exact (H n X)].
  destruct (negb (bytes_eqb (c_mac P key tlv0) mac)); [apply wp_ret; exact (H n X)|].
  apply wp_bnd. eapply wp_establish; [exact Hf | exact X | exact Hsk | exact Hr|]. intros b n1 F1 X1 Hb.
  apply wp_when; intros E; [|exact (H n1 X1)]. destruct (frame_has _ _ _ _ F1 Hf) as (p1 & Hf1).
  apply wp_bnd. eapply wp_rd; [exact Hf1|]. eapply wp_send; [exact (sk_for_alive _ _ _ _ X1 (Hb E)) | exact Hf1|]. intros n2 p2 L2 _ _. apply H. eapply lk_ex; eassumption.
Qed.
Lemma wp_handle_finish : forall sk la ra pid serial hk mac tlv0 w n p (Q : unit -> node -> Prop), find_id (n_peers n) pid = Some p -> ex n ->
  sk_for n pid sk -> rem_ok p -> (forall n', ex n' -> Q tt n') -> wp (handle_finish_handshake P sk la ra pid serial hk mac tlv0 w) n Q.
Proof.
  intros sk la ra pid serial hk mac tlv0 w n p Q Hf X Hsk Hr H. apply wp_bnd. eapply wp_rd; [exact Hf|].
  destruct (get_method_by_name (c_methods P (p_group p)) (w_method w)) as [method|].
  2:{ apply wp_send_error; [exists p; exact Hf | exact (sk_for_alive _ _ _ _ X Hsk) |]. intros n1 L1. apply H. eapply lk_ex; eassumption. }
  apply wp_bnd. eapply wp_update_shared; [exact Hf|]. intros c n1 L1. assert (X1 : ex n1) by (eapply lk_ex; eassumption).
  destruct c as [c|]; [|apply wp_ret; exact (H n1 X1)]. destruct (negb (bytes_eqb (c_mac P (hc_key c) tlv0) mac)); [apply wp_ret; exact (H n1 X1)|].
  destruct (lk_find _ _ _ _ L1 Hf) as (p1 & Hf1 & E1). apply core_inv in E1. destruct E1 as (_ & _ & _ & _ & _ & _ & E7 & E8).
  apply wp_bnd. eapply wp_establish; [exact Hf1 | exact X1 | eapply sk_for_lk; eassumption | eapply rem_ok_core; eassumption|].
  intros b n2 F2 X2 _. destruct (frame_has _ _ _ _ F2 Hf1) as (p2 & Hf2). eapply wp_wr_lk; [exact Hf2 | reflexivity|].
  intros n3 _ L3. apply H. eapply lk_ex; eassumption.
Qed.

(** ** New peers *)
Lemma ids_ok_insert : forall n x l, ids_ok n -> p_id x = n_next_id n -> l = n_peers n ++ [x] ->
  StronglySorted N.lt (ids l) /\ Forall (fun i => (i < n_next_id n + 1)%N) (ids l).
Proof.
  intros n x l [Hs Hlt] Ex ->. unfold ids. rewrite map_app. cbn [map]. rewrite Ex. split.
  - unfold ids in *. revert Hs Hlt. generalize (map p_id (n_peers n)) as k. generalize (n_next_id n) as y.
    intros y k. induction k as [|z k IH]; intros Hs Hlt; [constructor; constructor|].
    apply StronglySorted_inv in Hs. destruct Hs as [Hs Hf]. inversion Hlt as [|z' l' Hy Hl E]; subst. cbn. constructor; [exact (IH Hs Hl)|].
    apply Forall_app. split; [exact Hf | constructor; [exact Hy | constructor]].
  - apply Forall_app. split; [|constructor; [lia | constructor]]. rewrite Forall_forall in *. intros i Hi. specialize (Hlt i Hi). lia.
Qed.
Lemma find_fresh : forall n, ids_ok n -> find_id (n_peers n) (n_next_id n) = None.
Proof.
  intros n [_ Hlt]. destruct (find_id (n_peers n) (n_next_id n)) as [p|] eqn:E; [|reflexivity]. exfalso.
  assert (Hin : In (n_next_id n) (ids (n_peers n))) by (apply has_iff; exists p; exact E).
  rewrite Forall_forall in Hlt. specialize (Hlt _ Hin). lia.
Qed.
Lemma find_app_new : forall l x, find_id l (p_id x) = None -> find_id (l ++ [x]) (p_id x) = Some x.
Proof.
  induction l as [|y l IH]; intros x H; unfold find_id in *; cbn [app find] in *.
  - rewrite N.eqb_refl. reflexivity.
  - destruct (N.eqb (p_id y) (p_id x)); [discriminate | exact (IH x H)].
Qed.

Lemma wp_insert : forall c st n (Q : N -> node -> Prop), ex n -> (st = CDynamic -> pc_remotes c = [] /\ allow_verify P = true) ->
  (forall n', ex n' -> find_id (n_peers n') (n_next_id n) = Some (new_peer (n_next_id n) c st (k_serial (n_cur n))) -> Q (n_next_id n) n') -> wp (insert_peer c st) n Q.
Proof.
  intros c st n Q X Hd H. apply wp_bnd. apply wp_gets. apply wp_bnd. apply wp_modn. apply wp_ret. set (x := new_peer (n_next_id n) c st (k_serial (n_cur n))).
  destruct X as [Xi Xp Xe Xv]. assert (Hfresh := find_fresh n Xi). apply H.
  - constructor; cbn [n_peers n_eth n_verifying n_next_id set_n_peers set_n_next_id].
    + exact (ids_ok_insert n x _ Xi eq_refl eq_refl).
    + intros q p Hq. apply find_id_app in Hq. destruct Hq as [Hq | [-> _]]; [exact (Xp q p Hq)|]. constructor; try discriminate.
      * intros E. exfalso. apply E. reflexivity.
      * intros E. cbn in E. destruct (Hd E) as [A B]. cbn. rewrite A. split; [reflexivity | exact B].
    + intros e d He Hde. unfold ids. rewrite map_app. apply in_or_app. left. exact (Xe e d He Hde).
    + exact Xv.
  - cbn [n_peers set_n_peers set_n_next_id]. change (n_next_id n) with (p_id x) at 1. apply find_app_new. exact Hfresh.
Qed.

Lemma wp_add_dynamic : forall sk key n (Q : option N -> node -> Prop), ex n ->
  (forall n', n' = n -> Q None n') ->
  (forall id n' p', ex n' -> find_id (n_peers n') id = Some p' -> rem_ok p' -> (exists k, sk = SBound k) -> Q (Some id) n') -> wp (add_dynamic P sk key) n Q.
Proof.
  intros sk key n Q X H0 H1. unfold add_dynamic. destruct (negb (allow_verify P)) eqn:Ev; [apply wp_ret; apply H0; reflexivity|].
  destruct sk as [k|o i]; [|apply wp_ret; apply H0; reflexivity].
  destruct (bytes_eqb (c_own P) key); [apply wp_ret; apply H0; reflexivity|]. apply wp_bnd. apply wp_gets.
  destruct (find_peer_key (n_peers n) key) as [x|] eqn:Ek; [apply wp_ret; apply H0; reflexivity|].
  destruct (negb (c_key_ok P key)); [apply wp_ret; apply H0; reflexivity|].
  destruct (negb (may_connect P (n_peers n) _)); [apply wp_ret; apply H0; reflexivity|].
  apply wp_bnd. unfold peer_add. apply wp_bnd. apply wp_gets. cbn [pc_key dyn_conf]. rewrite Ek.
  apply wp_bnd. apply wp_insert; [exact X | intros _; split; [reflexivity | apply Bool.negb_false_iff; exact Ev]|]. intros n1 X1 Hf1. apply wp_ret.
  apply wp_bnd. eapply wp_wr_lk; [exact Hf1 | reflexivity|]. intros n2 Hf2 L2. apply wp_bnd. eapply wp_peer_reset; [exact Hf2 | eapply lk_ex; eassumption|].
  intros n3 p3 Hf3 (W1 & W2 & W3 & W4 & W5 & W6) C3 X3. apply wp_ret. eapply H1; [exact X3 | exact Hf3 | | exists k; reflexivity].
  intros j Hn. exfalso. apply Hn. apply W4. reflexivity.
Qed.

(** ** Verification *)
Lemma wp_verify : forall pid k la ra hk flags n p (Q : option bool -> node -> Prop), find_id (n_peers n) pid = Some p -> allow_verify P = true ->
  (forall v n', lk n n' -> Q v n') -> wp (verify_peer P pid (SBound k) la ra hk flags) n Q.
Proof.
  intros pid k la ra hk flags n p Q Hf Hv H. unfold verify_peer. unfold allow_verify in Hv. destruct (c_verify P) as [sync|]; [|discriminate].
  apply wp_bnd. unfold set_verifying. apply wp_bnd. apply wp_gets. eapply wp_wr_lk; [exact Hf | reflexivity|]. intros n1 Hf1 L1.
  apply wp_bnd. eapply wp_rd; [exact Hf1|]. destruct sync.
  - apply wp_bnd. apply wp_flip. intros ok n2 E2 L2. apply wp_bnd. apply wp_emit. intros n3 E3 L3. apply wp_bnd. unfold set_verified. apply wp_bnd. apply wp_gets. cbv zeta.
    eapply wp_wr_lk; [rewrite E3, E2; exact Hf1 | reflexivity|]. intros n4 _ L4. apply wp_ret. apply H.
    eapply lk_trans; [exact L1|]. eapply lk_trans; [exact L2|]. eapply lk_trans; eassumption.
  - apply wp_bnd. apply wp_flip. intros st n2 E2 L2. destruct st; cbn [negb]; [|apply wp_ret; apply H; eapply lk_trans; eassumption].
    apply wp_bnd. apply wp_emit. intros n3 E3 L3. apply wp_bnd. apply wp_modn. apply wp_ret. apply H.
    eapply lk_trans; [exact L1|]. eapply lk_trans; [exact L2|]. eapply lk_trans; [exact L3|]. split; [|reflexivity]. constructor; try reflexivity.
    + intros e d He _. left. exact He.
    + intros j Hj. cbn in Hj. destruct Hj as [<- | Hj]; [right; exists k; reflexivity | left; exact Hj].
Qed.
Lemma wp_handle_dynamic : forall sk la ra pid hk w n p (Q : bool -> node -> Prop), find_id (n_peers n) pid = Some p -> is_dynamic p = true -> ex n -> sk_for n pid sk ->
  (forall n', lk n n' -> Q true n') -> (forall n', ex n' -> Q false n') -> wp (handle_dynamic P sk la ra pid hk w) n Q.
Proof.
  intros sk la ra pid hk w n p Q Hf Hd X Hsk H1 H0. pose proof (x_peers _ _ X _ _ Hf) as Xp. apply is_dyn_true in Hd. destruct (e_dyn _ _ Xp Hd) as [Hr Hv].
  assert (Hk : exists k, sk = SBound k).
  { destruct sk as [k|o i]; [exists k; reflexivity|]. destruct Hsk as (p0 & Y & Hs). rewrite Hf in Y. injection Y as <-. destruct (e_sock _ _ Xp _ _ Hs). contradiction. }
  destruct Hk as (k & ->). apply wp_bnd. eapply wp_rd; [exact Hf|]. apply wp_bnd. apply wp_gets. destruct (_ || _)%bool.
  - apply wp_ret. destruct (negb (timed_out (n_now n) (p_valid_to p))); [apply H1; apply ch_refl | exact (H0 n X)].
  - apply wp_bnd. eapply wp_verify; [exact Hf | exact Hv|]. intros v n1 L1. assert (X1 : ex n1) by (eapply lk_ex; eassumption).
    destruct v as [[|]|]; [apply wp_ret; exact (H1 n1 L1) | | apply wp_ret; exact (H0 n1 X1)].
    destruct (lk_find _ _ _ _ L1 Hf) as (p1 & Hf1 & _). apply wp_bnd. eapply wp_peer_delete; [exact Hf1 | exact X1|]. intros n2 X2 _ _ _. apply wp_ret. exact (H0 n2 X2).
Qed.
Lemma wp_verify_return : forall j ok n (Q : unit -> node -> Prop), ex n -> (exists k, v_sock j = SBound k) ->
  (forall p, find_id (n_peers n) (v_peer j) = Some p -> is_dynamic p = true) -> (forall n', ex n' -> Q tt n') -> wp (verify_return P j ok) n Q.
Proof.
  intros j ok n Q X (k & Hk) Hd H. apply wp_bnd. apply wp_gets. destruct (find_id (n_peers n) (v_peer j)) as [p|] eqn:Hf; [|apply wp_ret; exact (H n X)].
  rewrite (Hd p eq_refl). cbn [negb]. assert (Hf' : find_id (n_peers n) (p_id p) = Some p) by (rewrite (found_id _ _ _ Hf); exact Hf). clear Hf.
  apply wp_bnd. apply wp_emit. intros n1 E1 L1. apply wp_bnd. unfold set_verified. apply wp_bnd. apply wp_gets. cbv zeta.
  eapply wp_wr_lk; [rewrite E1; exact Hf' | reflexivity|]. intros n2 Hf2 L2. assert (L : lk n n2) by (eapply lk_trans; eassumption).
  destruct (negb ok); [apply wp_ret; apply H; eapply lk_ex; eassumption|]. apply wp_bnd. apply wp_gets. apply wp_bnd.
  eapply wp_wr_lk; [exact Hf2 | reflexivity|]. intros n3 Hf3 L3. assert (X3 : ex n3) by (eapply lk_ex; [exact (lk_trans _ _ _ L L3) | exact X]).
  rewrite Hk. eapply wp_respond; [exact Hf3 | exact X3 | reflexivity|]. intros n4 L4. apply H. eapply lk_ex; eassumption.
Qed.

(** ** Received handshakes *)
Lemma wp_handshake_from : forall sk la ra pid w n p (Q : unit -> node -> Prop), find_id (n_peers n) pid = Some p -> ex n -> sk_for n pid sk -> rem_ok p ->
  (forall n', ex n' -> Q tt n') -> wp (handshake_from P sk la ra pid w) n Q.
Proof.
  intros sk la ra pid w n p Q Hf X Hsk Hr H. apply wp_bnd. eapply wp_rd; [exact Hf|].
  destruct (match w_mtu w with Some m => negb (N.eqb m (peer_mtu P p)) | None => false end).
  { apply wp_send_error; [exists p; exact Hf | exact (sk_for_alive _ _ _ _ X Hsk)|]. intros n1 L1. apply H. eapply lk_ex; eassumption. }
  destruct (w_sender_hk w) as [hk|]; [|apply wp_ret; exact (H n X)]. apply wp_bnd. apply wp_gets. apply wp_bnd. apply wp_gets.
  destruct (negb (may_connect P (n_peers n) p)); [apply wp_ret; exact (H n X)|].
  destruct (negb (timed_out (n_now n) (p_eh_to p))); [apply wp_ret; exact (H n X)|].
  destruct (match w_recipient w with Some rk => negb (bytes_eqb (c_own P) rk) | None => false end); [apply wp_ret; exact (H n X)|].
  apply wp_bnd.
  assert (Hgo : forall n1, lk n n1 -> wp (if N.eqb (w_type w) 1 then
          p <- rd pid ;;
          if (negb (timed_out (n_now n) (p_lhr_to p)) && addr_eqb (Some ra) (p_lhr_addr p))%bool then ret tt
          else
            wr pid (fun p => set_p_lhr_to (n_now n + MIN_HANDSHAKE_INTERVAL) (set_p_lhr_addr (Some ra) p)) ;;
            respond_handshake P sk ra pid hk
        else handshake_reply P sk la ra pid hk w) n1 Q).
  { intros n1 L1. assert (X1 : ex n1) by (eapply lk_ex; eassumption). destruct (lk_find _ _ _ _ L1 Hf) as (p1 & Hf1 & E1).
    assert (Hsk1 : sk_for n1 pid sk) by (eapply sk_for_lk; eassumption). apply core_inv in E1. destruct E1 as (_ & _ & _ & _ & _ & _ & E7 & E8).
    assert (Hr1 : rem_ok p1) by (eapply rem_ok_core; eassumption).
    destruct (N.eqb (w_type w) 1).
    - apply wp_bnd. eapply wp_rd; [exact Hf1|]. destruct (_ && _)%bool; [apply wp_ret; exact (H n1 X1)|]. apply wp_bnd.
      eapply wp_wr_lk; [exact Hf1 | reflexivity|]. intros n2 Hf2 L2. assert (X2 : ex n2) by (eapply lk_ex; eassumption).
      eapply wp_respond; [exact Hf2 | exact X2 | eapply sk_for_alive; [exact X2 | eapply sk_for_lk; eassumption]|]. intros n3 L3. apply H. eapply lk_ex; eassumption.
    - unfold handshake_reply. destruct (w_recipient w); [|apply wp_ret; exact (H n1 X1)]. destruct (w_recipient_hk w) as [rh|]; [|apply wp_ret; exact (H n1 X1)].
      destruct (w_mac w) as [[mac tlv0]|]; [|apply wp_ret; exact (H n1 X1)]. apply wp_bnd. apply wp_gets. apply wp_bnd. apply wp_gets. apply wp_bnd. apply wp_gets.
      match goal with |- wp (match ?x with Some _ => _ | None => _ end) _ _ => destruct x as [k|] end; [|apply wp_ret; exact (H n1 X1)].
      destruct (N.eqb (w_type w) 2); [eapply wp_finish; [exact Hf1 | exact X1 | exact Hsk1 | exact Hr1 | exact H]|].
      destruct (N.eqb (w_type w) 3); [eapply wp_handle_finish; [exact Hf1 | exact X1 | exact Hsk1 | exact Hr1 | exact H] | apply wp_ret; exact (H n1 X1)]. }
  destruct (is_dynamic p) eqn:Ed; [|apply wp_ret; apply Hgo; apply ch_refl].
  eapply wp_handle_dynamic; [exact Hf | exact Ed | exact X | exact Hsk | intros n1 L1; cbn [negb]; apply Hgo; exact L1 | intros n1 X1; cbn [negb]; apply wp_ret; exact (H n1 X1)].
Qed.

Lemma find_key_peer : forall l key a acc q, find_key l key a acc = MatchPeer q -> acc = Some q \/ exists p, In p l /\ p_id p = q /\ p_key p = key /\ is_enabled p = true.
Proof.
  induction l as [|x l IH]; intros key a acc q H; cbn in H.
  - destruct acc; [injection H as ->; left; reflexivity | discriminate].
  - assert (R : forall acc', find_key l key a acc' = MatchPeer q -> acc' = Some q \/ exists p, In p (x :: l) /\ p_id p = q /\ p_key p = key /\ is_enabled p = true).
    { intros acc' E. destruct (IH _ _ _ _ E) as [Y | (p & A & B)]; [left; exact Y | right; exists p; split; [right; exact A | exact B]]. }
    destruct (is_enabled x) eqn:Ee; cbn [negb] in H; [|exact (R _ H)]. destruct (bytes_eqb (p_key x) key) eqn:Ek.
    + destruct (negb (matches_address x a)); [discriminate|]. destruct (R _ H) as [Y | Y]; [|right; exact Y]. injection Y as <-. right. exists x.
      split; [left; reflexivity|]. split; [reflexivity|]. split; [apply bytes_eqb_true; exact Ek | exact Ee].
    + destruct (owns_address x a); [discriminate | exact (R _ H)].
Qed.

(** the peers that may get a handshake *)
Definition ready (n : node) : Prop := forall q p, find_id (n_peers n) q = Some p -> is_enabled p = true \/ p_addr p <> None -> rem_ok p.

Lemma wp_proto : forall sk la ra pid w n (Q : unit -> node -> Prop), ex n -> ready n ->
  match pid with Some pid => exists p, find_id (n_peers n) pid = Some p /\ p_addr p = Some ra | None => True end ->
  match sk with SBound _ => True | SDyn o _ => pid = Some o /\ sk_for n o sk /\ forall q key, w_sender w = Some key -> In q (n_peers n) -> p_id q <> o -> p_key q <> key end ->
  (forall n', ex n' -> Q tt n') -> wp (proto_handshake P sk la ra pid w) n Q.
Proof.
  intros sk la ra pid w n Q X Hr Hp Hsk H. apply wp_bnd. apply maintenance_lk. intros n1 E1 L1. assert (X1 : ex n1) by (eapply lk_ex; eassumption).
  destruct (w_sender w) as [key|]; [|apply wp_ret; exact (H n1 X1)].
  apply wp_bnd. unfold match_sender_key. apply wp_bnd.
  match goal with |- wp (match sk with SBound _ => _ | SDyn _ _ => _ end) _ ?R => cut (R tt n1) end.
  { intros Hc. destruct sk as [k|o i]; [destruct pid; exact Hc|]. destruct Hsk as (-> & _). rewrite N.eqb_refl. exact Hc. }
  cbv beta. apply wp_bnd. apply wp_gets.
  assert (Hmatch : forall m, m = find_key (n_peers n1) key ra None \/ (exists q, pid = Some q /\ m = MatchPeer q) ->
    (match sk with SDyn o _ => forall q, m = MatchPeer q -> q = o | _ => True end) ->
    wp (match m with
      | MatchPerm => ret tt
      | MatchPeer pid => handshake_from P sk la ra pid w
      | MatchNone =>
          id <- add_dynamic P sk key ;;
          match id with
          | Some id => handshake_from P sk la ra id w
          | None => ret tt
          end
      end) n1 Q).
  { intros m Hm Hown. destruct m as [q| |].
    - assert (Hq : exists p, find_id (n_peers n1) q = Some p /\ rem_ok p).
      { destruct Hm as [Hm | (q' & Hpq & Hm)].
        - symmetry in Hm. apply find_key_peer in Hm. destruct Hm as [Hm | (p & Hin & Eid & _ & Een)]; [discriminate|].
          assert (Hf : find_id (n_peers n1) q = Some p) by (rewrite <- Eid; apply in_find; [exact (x_ids _ _ X1) | exact Hin]).
          exists p. split; [exact Hf|]. apply (Hr q); [rewrite <- E1; exact Hf | left; exact Een].
        - injection Hm as ->. rewrite Hpq in Hp. destruct Hp as (p & Hf & Ha). exists p. rewrite E1. split; [exact Hf|]. apply (Hr q' p Hf). right. congruence. }
      destruct Hq as (p & Hf & Hrp). eapply wp_handshake_from; [exact Hf | exact X1 | | exact Hrp | exact H].
      destruct sk as [k|o i]; [exact Logic.I|]. rewrite (Hown q eq_refl). eapply sk_for_lk; [exact L1 | apply Hsk].
    - apply wp_ret. exact (H n1 X1).
    - apply wp_bnd. apply wp_add_dynamic; [exact X1 | intros n2 ->; apply wp_ret; exact (H n1 X1)|].
      intros id n2 p2 X2 Hf2 Hr2 (k & ->). eapply wp_handshake_from; [exact Hf2 | exact X2 | exact Logic.I | exact Hr2 | exact H]. }
  assert (Hown : forall o i, sk = SDyn o i -> forall q, find_key (n_peers n1) key ra None = MatchPeer q -> q = o).
  { intros o i -> q Hm. destruct Hsk as (_ & _ & Hk). apply find_key_peer in Hm. destruct Hm as [Hm | (p & Hin & Eid & Ek & _)]; [discriminate|].
    destruct (N.eq_dec q o) as [E|E]; [exact E|]. exfalso. rewrite E1 in Hin. apply (Hk p key eq_refl Hin); congruence. }
  destruct pid as [pid|].
  - destruct Hp as (p & Hf & Ha). apply wp_bnd. eapply wp_rd; [rewrite E1; exact Hf|]. destruct (bytes_eqb (p_key p) key).
    + apply wp_ret. apply (Hmatch (MatchPeer pid)); [right; exists pid; split; reflexivity|]. destruct sk as [k|o i]; [exact Logic.I|].
      intros q [= <-]. destruct Hsk as ([= E] & _). exact E.
    + destruct (owns_address p ra); apply wp_ret; [exact (H n1 X1)|]. apply Hmatch; [left; reflexivity|].
      destruct sk as [k|o i]; [exact Logic.I | exact (Hown o i eq_refl)].
  - apply wp_ret. apply Hmatch; [left; reflexivity|]. destruct sk as [k|o i]; [exact Logic.I | exact (Hown o i eq_refl)].
Qed.
End Safe.
