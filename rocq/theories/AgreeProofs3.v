(** Agreement between the nodes *)
From Verif Require Import Base BaseLemmas BufferModel BufferProofs NonceModel MethodModel MethodProofs HandshakeModel HandshakeSpec HandshakeProofs HandshakeProofs2 HandshakeProofs3 HandshakeProofs4
  NodeModel NodeSpec NodeSteps NodeWf NodeInv NodeFun NodeFun2 NodeFun3 NodeFun4 NodeProofs NodeProofs3 NodeProofs4 NodeConnect AgreeSpec AgreeProofs AgreeProofs2.
From Coq Require Import Lia ZifyBool ZifyNat ZifyN.
Local Open Scope Z_scope.

Section Family.
Variable Ps : nat -> params.
Hypothesis F : family Ps.

(** A packet with the content of one that was composed by [k] *)
Lemma from_composed : forall w k d pkt h x tag d' pkt' h',
  reachable (Ps k) (w k) -> composed (w k) d' -> reads d' pkt' h' -> mac_input pkt' h' = Some x ->
  reads d pkt h -> mac_input pkt h = Some x -> value pkt h R_TLV_MAC = Some tag -> length tag = 32%nat ->
  value pkt h R_SENDER_KEY = Some (c_own (Ps k)) /\
  ((exists t pid dst serial m p sigma, In (t, OResp pid dst serial m) (n_out (w k)) /\ g_data m = Ok d' /\
      c_shared (Ps k) false serial (p_key p) (g_hk m) = Some (sigma, g_salt m) /\
      value pkt h R_TYPE = Some [2%N] /\ value pkt h R_RECIPIENT_KEY = Some (p_key p) /\
      value pkt h R_SENDER_HANDSHAKE_KEY = Some (c_eph (Ps k) serial) /\ value pkt h R_RECIPIENT_HANDSHAKE_KEY = Some (g_hk m) /\
      (forall ty, ty <> R_TLV_MAC -> value pkt' h' ty = value pkt h ty) /\
      let l := c_methods (Ps k) (p_group p) in
      value pkt h R_METHOD_LIST = match l with [] => None | _ => Some (create_method_list l) end) \/
   (exists t pid conf serial hk salt sigma method sid src key, In (t, OSession pid key conf true serial hk salt sigma method sid src) (n_out (w k)) /\
      c_shared (Ps k) true serial key hk = Some (sigma, salt) /\ (exists g, In method (c_methods (Ps k) g)) /\
      value pkt h R_TYPE = Some [3%N] /\ value pkt h R_RECIPIENT_KEY = Some key /\
      value pkt h R_SENDER_HANDSHAKE_KEY = Some (c_eph (Ps k) serial) /\ value pkt h R_RECIPIENT_HANDSHAKE_KEY = Some hk /\
      value pkt h R_METHOD_NAME = Some method)).
Proof.
  intros w k d pkt h x tag d' pkt' h' R (t & pid & dst & m & Hd & Hin) Hr' Hx' Hr Hx Ht Lt.
  assert (B : forall tag', value pkt' h' R_TLV_MAC = Some tag' -> length tag' = 32%nat -> forall ty, ty <> R_TLV_MAC -> value pkt h ty = value pkt' h' ty).
  { intros tag' H1 H2. apply (binding pkt pkt' h h' x (proj2 Hr) (proj2 Hr') Hx Hx'); [exists tag | exists tag']; split; assumption. }
  assert (T : R_TYPE <> R_TLV_MAC /\ R_SENDER_KEY <> R_TLV_MAC /\ R_RECIPIENT_KEY <> R_TLV_MAC /\ R_SENDER_HANDSHAKE_KEY <> R_TLV_MAC /\
    R_RECIPIENT_HANDSHAKE_KEY <> R_TLV_MAC /\ R_METHOD_LIST <> R_TLV_MAC /\ R_METHOD_NAME <> R_TLV_MAC) by (repeat split; discriminate).
  assert (T' : (R_TYPE < RECORD_MAX /\ R_SENDER_KEY < RECORD_MAX /\ R_RECIPIENT_KEY < RECORD_MAX /\ R_SENDER_HANDSHAKE_KEY < RECORD_MAX /\
    R_RECIPIENT_HANDSHAKE_KEY < RECORD_MAX /\ R_METHOD_LIST < RECORD_MAX /\ R_METHOD_NAME < RECORD_MAX)%nat) by (repeat split; vm_compute; lia).
  destruct T as (T1 & T2 & T3 & T4 & T5 & T6 & T7). destruct T' as (U1 & U2 & U3 & U4 & U5 & U6 & U7).
  destruct Hin as [(serial & Hin) | Hin]; pose proof (history _ _ R _ _ Hin) as Hh; cbn [told] in Hh.
  - destruct Hh as (p & sigma & Hs & Hw). destruct (fm_shared_len _ F _ _ _ _ _ _ Hs) as [L1 L2]. rewrite Hd in Hw. symmetry in Hw. unfold wire_resp in Hw.
    destruct (reply_reads _ _ _ _ _ _ _ _ _ _ _ _ _ (fm_buf _ F k) (fm_own_len _ F k) L1 (fm_eph_len _ F k serial) L2 (fm_mac_len _ F k (g_salt m)) Hw Hr') as (tag' & Et & Lt' & Hv).
    specialize (B _ Et Lt').
    destruct (reply_values (c_hs (Ps k)) 2 (peer_mtu (Ps k) p) None (c_methods (Ps k) (p_group p)) (c_own (Ps k)) (p_key p) (c_eph (Ps k) serial) (g_hk m) tag')
      as (V1 & V2 & V3 & V4 & V5 & V6 & V7).
    split; [rewrite (B _ T2), (Hv _ U2); exact V2|]. left. exists t, pid, dst, serial, m, p, sigma.
    split; [exact Hin|]. split; [exact Hd|]. split; [exact Hs|]. split; [rewrite (B _ T1), (Hv _ U1); exact V1|]. split; [rewrite (B _ T3), (Hv _ U3); exact V3|].
    split; [rewrite (B _ T4), (Hv _ U4); exact V4|]. split; [rewrite (B _ T5), (Hv _ U5); exact V5|].
    split; [intros ty Hty; symmetry; exact (B ty Hty)|]. cbv zeta. rewrite (B _ T6), (Hv _ U6). exact V6.
  - destruct Hh as (t' & p & conf & serial & sigma & method & sid & src & Hin' & Hw). pose proof (history _ _ R _ _ Hin') as Hs. cbn [told] in Hs. destruct Hs as [Hs Hg].
    destruct (fm_shared_len _ F _ _ _ _ _ _ Hs) as [L1 L2]. rewrite Hd in Hw. symmetry in Hw. unfold wire_fin in Hw.
    destruct (reply_reads _ _ _ _ _ _ _ _ _ _ _ _ _ (fm_buf _ F k) (fm_own_len _ F k) L1 (fm_eph_len _ F k serial) L2 (fm_mac_len _ F k (g_salt m)) Hw Hr') as (tag' & Et & Lt' & Hv).
    specialize (B _ Et Lt').
    destruct (reply_values (c_hs (Ps k)) 3 (peer_mtu (Ps k) p) (Some method) [] (c_own (Ps k)) (p_key p) (c_eph (Ps k) serial) (g_hk m) tag')
      as (V1 & V2 & V3 & V4 & V5 & V6 & V7).
    split; [rewrite (B _ T2), (Hv _ U2); exact V2|]. right. exists t', pid, conf, serial, (g_hk m), (g_salt m), sigma, method, sid, src, (p_key p).
    split; [exact Hin'|]. split; [exact Hs|]. split; [exact Hg|]. split; [rewrite (B _ T1), (Hv _ U1); exact V1|]. split; [rewrite (B _ T3), (Hv _ U3); exact V3|].
    split; [rewrite (B _ T4), (Hv _ U4); exact V4|]. split; [rewrite (B _ T5), (Hv _ U5); exact V5|].
    rewrite (B _ T7), (Hv _ U7). exact V7.
Qed.

(** The packet that a new session comes from *)
Lemma session_packet : forall w i dt ev n' t pid key conf initiator serial hk salt sigma method sid src,
  reachable (Ps i) (w i) -> handles (Ps i) (w i) dt ev n' ->
  newly (w i) n' t (OSession pid key conf initiator serial hk salt sigma method sid src) ->
  exists sk la d pkt h x g, ev = EvRecv sk la src d /\ reads d pkt h /\ c_shared (Ps i) initiator serial key hk = Some (sigma, salt) /\
    value pkt h R_TYPE = Some [if initiator then 2 else 3]%N /\
    value pkt h R_SENDER_KEY = Some key /\ value pkt h R_RECIPIENT_KEY = Some (c_own (Ps i)) /\
    value pkt h R_SENDER_HANDSHAKE_KEY = Some hk /\ value pkt h R_RECIPIENT_HANDSHAKE_KEY = Some (c_eph (Ps i) serial) /\
    mac_input pkt h = Some x /\ value pkt h R_TLV_MAC = Some (c_mac (Ps i) salt x) /\
    group_at (Ps i) (w i) pid g /\
    (if initiator then get_method_by_name_list (c_methods (Ps i) g) (value pkt h R_METHOD_LIST)
     else get_method_by_name (c_methods (Ps i) g) (value pkt h R_METHOD_NAME)) = Some method.
Proof.
  intros w i dt ev n' t pid key conf initiator serial hk salt sigma method sid src R H Hn.
  destruct (handles_steps _ _ _ _ _ H (reachable_inv _ _ R)) as [I1 [[S _] _]].
  destruct (steps_new _ _ _ _ _ _ _ S Hn) as (m1 & m2 & S1 & Hs & _ & E & _).
  destruct (nstep_session _ _ _ _ _ _ _ _ _ _ _ _ _ _ _ _ _ Hs E) as (p & compat & Hf & <- & _ & _ & _ & Ev).
  destruct (evidence_reads _ _ _ _ _ _ _ _ _ _ _ _ Ev) as (sk & la & d & pkt & h & x & E1 & E2 & E3 & E4 & E5 & E6 & E7 & E8 & E9 & E10).
  exists sk, la, d, pkt, h, x, (p_group p). split; [exact E1|]. split; [exact E2|]. split; [exact (ed_shared _ _ _ _ _ _ _ _ _ _ _ _ Ev)|].
  repeat (split; [assumption|]). split; [|exact E10].
  rewrite E1 in S1. pose proof (group_steps _ _ _ _ _ S1 (i_0 _ _ I1) pid p eq_refl Hf) as G. exact G.
Qed.

Lemma responder_agrees : forall w i j dt ev n' t pid conf serial hk salt sigma method sid src,
  (forall k, reachable (Ps k) (w k)) -> moves Ps w i dt ev n' ->
  newly (w i) n' t (OSession pid (c_own (Ps j)) conf false serial hk salt sigma method sid src) ->
  exists t' o', In (t', o') (n_out (w j)) /\ paired (Ps i) (Ps j) (OSession pid (c_own (Ps j)) conf false serial hk salt sigma method sid src) o'.
Proof.
  intros w i j dt ev n' t pid conf serial hk salt sigma method sid src R [H U] Hn.
  destruct (session_packet _ _ _ _ _ _ _ _ _ _ _ _ _ _ _ _ _ (R i) H Hn) as (sk & la & d & pkt & h & x & g & E1 & E2 & Es & E3 & E4 & E5 & E6 & E7 & E8 & E9 & _ & E10).
  rewrite E1 in U. destruct (U j _ _ _ _ _ _ _ _ Es E2 E8 E9) as (k & d' & pkt' & h' & Hc & Hr' & Hx').
  destruct (from_composed w k d pkt h x _ d' pkt' h' (R k) Hc Hr' Hx' E2 E8 E9 (fm_mac_len _ F i salt x)) as [Ek [X | X]].
  { destruct X as (_ & _ & _ & _ & _ & _ & _ & _ & _ & _ & X & _). congruence. }
  assert (k = j) as -> by (apply (fm_own _ F); congruence).
  destruct X as (t' & pid' & conf' & s' & hk' & salt' & sigma' & method' & sid' & src' & key' & Hin & Hs' & (g' & Hg') & _ & X1 & X2 & X3 & X4).
  rewrite X1 in E5. injection E5 as ->. rewrite X2 in E6. injection E6 as <-. rewrite X3 in E7. injection E7 as ->.
  rewrite (fm_exchange _ F) in Hs'. rewrite Es in Hs'. injection Hs' as <- <-.
  rewrite X4, (by_name _ _ (fm_names _ F _ _ _ Hg')) in E10. destruct (contains _ _); [|discriminate]. injection E10 as <-.
  exists t'. eexists. split; [exact Hin|].
  exists pid, conf, serial, salt, sigma, method', sid, src, pid', conf', s', sid', src'. split; reflexivity.
Qed.

Lemma initiator_agrees : forall w i j dt ev n' t pid conf serial hk salt sigma method sid src,
  (forall k, reachable (Ps k) (w k)) -> moves Ps w i dt ev n' ->
  newly (w i) n' t (OSession pid (c_own (Ps j)) conf true serial hk salt sigma method sid src) ->
  exists t' pid' dst s' m l g, In (t', OResp pid' dst s' m) (n_out (w j)) /\
    g_hk m = c_eph (Ps i) serial /\ hk = c_eph (Ps j) s' /\ g_salt m = salt /\
    c_shared (Ps j) false s' (c_own (Ps i)) (c_eph (Ps i) serial) = Some (sigma, salt) /\
    offers m (c_own (Ps i)) l /\ group_at (Ps i) (w i) pid g /\ preferred l (c_methods (Ps i) g) = Some method.
Proof.
  intros w i j dt ev n' t pid conf serial hk salt sigma method sid src R [H U] Hn.
  destruct (session_packet _ _ _ _ _ _ _ _ _ _ _ _ _ _ _ _ _ (R i) H Hn) as (sk & la & d & pkt & h & x & g & E1 & E2 & Es & E3 & E4 & E5 & E6 & E7 & E8 & E9 & Eg & E10).
  rewrite E1 in U. destruct (U j _ _ _ _ _ _ _ _ Es E2 E8 E9) as (k & d' & pkt' & h' & Hc & Hr' & Hx').
  destruct (from_composed w k d pkt h x _ d' pkt' h' (R k) Hc Hr' Hx' E2 E8 E9 (fm_mac_len _ F i salt x)) as [Ek [X | X]].
  2:{ destruct X as (_ & _ & _ & _ & _ & _ & _ & _ & _ & _ & _ & _ & _ & _ & X & _). congruence. }
  assert (k = j) as -> by (apply (fm_own _ F); congruence).
  destruct X as (t' & pid' & dst & s' & m & p & sigma' & Hin & Hd & Hs' & _ & X1 & X2 & X3 & X4 & X5). cbv zeta in X5.
  rewrite X1 in E5. injection E5 as Ep. rewrite X2 in E6. injection E6 as <-. rewrite X3 in E7. injection E7 as Eh.
  pose proof Es as Es'. rewrite (fm_exchange _ F) in Es'. rewrite Ep, Eh in Hs'. rewrite Es' in Hs'. injection Hs' as <- Hsalt.
  exists t', pid', dst, s', m, (c_methods (Ps j) (p_group p)), g.
  split; [exact Hin|]. split; [exact Eh|]. split; [reflexivity|]. split; [congruence|]. split; [exact Es'|].
  rewrite X5 in E10. destruct (c_methods (Ps j) (p_group p)) as [|m1 l] eqn:El; [discriminate|]. rewrite <- El in *.
  split.
  - exists d', pkt', h'. split; [exact Hd|]. split; [exact Hr'|]. rewrite !X4 by discriminate. split; [congruence|].
    rewrite X5, El. rewrite <- El. reflexivity.
  - split; [exact Eg|]. rewrite choose_preferred in E10; [exact E10|]. apply Forall_forall. intros y Hy. exact (fm_names _ F j _ y Hy).
Qed.

(** What a response offers *)
Lemma response_offers : forall i n dt ev n' t pid dst serial m d,
  reachable (Ps i) n -> handles (Ps i) n dt ev n' -> newly n n' t (OResp pid dst serial m) -> g_data m = Ok d ->
  exists g key, group_at (Ps i) n pid g /\ (forall p, find_id (n_peers n') pid = Some p -> p_key p = key) /\
    (c_methods (Ps i) g <> [] -> forall pkt h, reads d pkt h -> offers m key (c_methods (Ps i) g)).
Proof.
  intros i n dt ev n' t pid dst serial m d R H Hn Hd.
  destruct (handles_steps _ _ _ _ _ H (reachable_inv _ _ R)) as [I1 [[S _] _]].
  destruct (steps_new _ _ _ _ _ _ _ S Hn) as (m1 & m2 & S1 & Hs & S2 & E & _).
  destruct (nstep_resp _ _ _ _ _ _ _ _ _ _ Hs E) as (_ & p & Hf & (sigma & Hsh) & Hw & Hev).
  assert (Hrl : f_rl (fl_of ev) = false) by (destruct ev; try contradiction; reflexivity).
  exists (p_group p), (p_key p). split; [exact (group_steps _ _ _ _ _ S1 (i_0 _ _ I1) pid p Hrl Hf)|]. split.
  - intros p' Hp'. assert (S12 : steps (Ps i) ev (fl_of ev) m1 n') by (eapply steps_step; eassumption).
    exact (proj1 (fix_steps _ _ _ _ _ _ _ _ S12 (inv0_steps _ _ _ _ _ S1 (i_0 _ _ I1)) Hf Hp')).
  - intros Hne pkt h Hr. exists d, pkt, h. split; [exact Hd|]. split; [exact Hr|].
    destruct (fm_shared_len _ F _ _ _ _ _ _ Hsh) as [L1 L2]. rewrite Hd in Hw. symmetry in Hw. unfold wire_resp in Hw.
    destruct (reply_reads _ _ _ _ _ _ _ _ _ _ _ _ _ (fm_buf _ F i) (fm_own_len _ F i) L1 (fm_eph_len _ F i serial) L2 (fm_mac_len _ F i (g_salt m)) Hw Hr) as (tag' & Et & Lt' & Hv).
    destruct (reply_values (c_hs (Ps i)) 2 (peer_mtu (Ps i) p) None (c_methods (Ps i) (p_group p)) (c_own (Ps i)) (p_key p) (c_eph (Ps i) serial) (g_hk m) tag')
      as (V1 & V2 & V3 & V4 & V5 & V6 & V7).
    rewrite !Hv by (vm_compute; lia). split; [exact V3|]. rewrite V6. destruct (c_methods (Ps i) (p_group p)); [congruence | reflexivity].
Qed.

(** ** All executions *)
Lemma happens_reachable : forall w, happens Ps w -> forall k, reachable (Ps k) (w k).
Proof.
  intros w H. induction H as [w H|w i dt ev n' _ IH [Hh _]]; intros k; [exact (proj1 (H k))|].
  unfold put. destruct (Nat.eqb_spec k i) as [->|]; [|apply IH].
  eapply later_reachable; [apply IH | eapply handles_later; exact Hh].
Qed.

Lemma moves_out : forall w i dt ev n', happens Ps w -> moves Ps w i dt ev n' -> exists l, n_out n' = l ++ n_out (w i).
Proof.
  intros w i dt ev n' H [Hh _]. destruct (handles_steps _ _ _ _ _ Hh (reachable_inv _ _ (happens_reachable _ H i))) as [_ [[S _] _]].
  exact (out_steps _ _ _ _ _ S).
Qed.
Lemma put_out : forall w i dt ev n' j x, happens Ps w -> moves Ps w i dt ev n' -> In x (n_out (w j)) -> In x (n_out (put w i n' j)).
Proof.
  intros w i dt ev n' j x H M Hin. unfold put. destruct (Nat.eqb_spec j i) as [->|]; [|exact Hin].
  destruct (moves_out _ _ _ _ _ H M) as (l & ->). apply in_or_app. right. exact Hin.
Qed.

(** Every session has an origin *)
Lemma origin : forall w i t o, happens Ps w -> In (t, o) (n_out (w i)) ->
  (exists pid key conf initiator serial hk salt sigma method sid src, o = OSession pid key conf initiator serial hk salt sigma method sid src) ->
  exists w0 dt ev n', happens Ps w0 /\ moves Ps w0 i dt ev n' /\ newly (w0 i) n' t o /\ forall j x, In x (n_out (w0 j)) -> In x (n_out (w j)).
Proof.
  intros w i t o H. revert i; induction H as [w H|w k dt ev n' H IH M]; intros i Hin Ho.
  - exfalso. destruct Ho as (pid & key & conf & ini & serial & hk & salt & sigma & method & sid & src & ->).
    exact (proj2 (H i) _ _ Hin _ _ _ _ _ _ _ _ _ _ _ eq_refl).
  - assert (Old : In (t, o) (n_out (w i)) -> exists w0 dt ev n'', happens Ps w0 /\ moves Ps w0 i dt ev n'' /\ newly (w0 i) n'' t o /\
      forall j x, In x (n_out (w0 j)) -> In x (n_out (put w k n' j))).
    { intros Hin'. destruct (IH i Hin' Ho) as (w0 & dt0 & ev0 & n0 & H1 & H2 & H3 & H4). exists w0, dt0, ev0, n0.
      repeat (split; [assumption|]). intros j x Hx. exact (put_out _ _ _ _ _ _ _ H M (H4 j x Hx)). }
    unfold put in Hin. destruct (Nat.eqb_spec i k) as [Eik|]; [|exact (Old Hin)]. subst k.
    destruct (moves_out _ _ _ _ _ H M) as (l & El). rewrite El in Hin. apply in_app_or in Hin. destruct Hin as [Hin | Hin]; [|exact (Old Hin)].
    exists w, dt, ev, n'. split; [exact H|]. split; [exact M|]. split; [exists l; split; assumption|].
    intros j x Hx. exact (put_out _ _ _ _ _ _ _ H M Hx).
Qed.

Lemma responder_history : forall w i j t pid conf serial hk salt sigma method sid src, happens Ps w ->
  In (t, OSession pid (c_own (Ps j)) conf false serial hk salt sigma method sid src) (n_out (w i)) ->
  exists t' o', In (t', o') (n_out (w j)) /\ paired (Ps i) (Ps j) (OSession pid (c_own (Ps j)) conf false serial hk salt sigma method sid src) o'.
Proof.
  intros w i j t pid conf serial hk salt sigma method sid src H Hin.
  destruct (origin _ _ _ _ H Hin) as (w0 & dt & ev & n' & H0 & M & Hn & Hm); [do 11 eexists; reflexivity|].
  destruct (responder_agrees _ _ _ _ _ _ _ _ _ _ _ _ _ _ _ _ (happens_reachable _ H0) M Hn) as (t' & o' & Hin' & Hp).
  exists t', o'. split; [apply Hm; exact Hin' | exact Hp].
Qed.
Lemma responder_event : forall w i j dt ev n' t pid conf serial hk salt sigma method sid src, happens Ps w -> moves Ps w i dt ev n' ->
  newly (w i) n' t (OSession pid (c_own (Ps j)) conf false serial hk salt sigma method sid src) ->
  exists t' o', In (t', o') (n_out (w j)) /\ paired (Ps i) (Ps j) (OSession pid (c_own (Ps j)) conf false serial hk salt sigma method sid src) o'.
Proof. intros w i j dt ev n' t pid conf serial hk salt sigma method sid src H. exact (responder_agrees w i j dt ev n' t pid conf serial hk salt sigma method sid src (happens_reachable _ H)). Qed.
Lemma initiator_event : forall w i j dt ev n' t pid conf serial hk salt sigma method sid src, happens Ps w -> moves Ps w i dt ev n' ->
  newly (w i) n' t (OSession pid (c_own (Ps j)) conf true serial hk salt sigma method sid src) ->
  exists t' pid' dst s' m l g, In (t', OResp pid' dst s' m) (n_out (w j)) /\
    g_hk m = c_eph (Ps i) serial /\ hk = c_eph (Ps j) s' /\ g_salt m = salt /\
    c_shared (Ps j) false s' (c_own (Ps i)) (c_eph (Ps i) serial) = Some (sigma, salt) /\
    offers m (c_own (Ps i)) l /\ group_at (Ps i) (w i) pid g /\ preferred l (c_methods (Ps i) g) = Some method.
Proof. intros w i j dt ev n' t pid conf serial hk salt sigma method sid src H. exact (initiator_agrees w i j dt ev n' t pid conf serial hk salt sigma method sid src (happens_reachable _ H)). Qed.

(** No session of the other side is used twice *)
Lemma paired_once : forall w i j newer t pid conf serial hk salt sigma method sid src older t2 o2 o', happens Ps w ->
  n_out (w i) = newer ++ (t, OSession pid (c_own (Ps j)) conf false serial hk salt sigma method sid src) :: older -> conf <> CDynamic ->
  In (t2, o2) older -> paired (Ps i) (Ps j) (OSession pid (c_own (Ps j)) conf false serial hk salt sigma method sid src) o' ->
  ~ paired (Ps i) (Ps j) o2 o'.
Proof.
  intros w i j newer t pid conf serial hk salt sigma method sid src older t2 o2 o' H E Hc Hin
    (pid1 & conf1 & s1 & salt1 & sigma1 & method1 & sid1 & src1 & pid1' & conf1' & s1' & sid1' & src1' & A1 & A2)
    (pid3 & conf3 & s3 & salt3 & sigma3 & method3 & sid3 & src3 & pid3' & conf3' & s3' & sid3' & src3' & B1 & B2).
  injection A1 as <- <- <- _ _ _ _ _ _.
  rewrite A2 in B2. assert (Ee : c_eph (Ps i) serial = c_eph (Ps i) s3) by congruence. apply (fm_eph _ F) in Ee. subst s3.
  assert (X : (serial < serial)%N); [|lia].
  apply (serials_grow_key _ _ _ _ _ _ _ _ _ _ _ _ _ _ _ _ (happens_reachable _ H i) E Hc t2 o2 pid3 serial Hin).
  rewrite B1. do 8 eexists. reflexivity.
Qed.
End Family.
