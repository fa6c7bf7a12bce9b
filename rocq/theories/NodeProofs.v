(** Proofs of the theorems about nodes, part 1 *)
From Verif Require Import Base BaseLemmas BufferModel NonceModel MethodModel HandshakeModel HandshakeSpec HandshakeProofs
  NodeModel NodeSteps NodeWf NodeInv NodeFun NodeFun2 NodeFun3 NodeFun4 NodeSpec.
From Coq Require Import Lia ZifyBool ZifyNat ZifyN Sorted.
Local Open Scope Z_scope.

(** ** Executions *)
Lemma reachable_inv : forall P n, reachable P n -> inv P n.
Proof. intros P n (now & orc & st & di & evs & H). eapply reach_inv. exact H. Qed.

Lemma each_app : forall A (f : A -> M unit) l1 l2 n, each f (l1 ++ l2) n = (each f l1;; each f l2) n.
Proof.
  induction l1 as [|a l1 IH]; intros l2 n; cbn [app each]; [reflexivity|]. unfold bnd in *. destruct (f a n) as [[x m]| | |]; try reflexivity.
  rewrite IH. reflexivity.
Qed.
Lemma execute_app : forall P now orc st di evs1 evs2 n,
  execute P now orc st di (evs1 ++ evs2) = Ok n <->
  exists m, execute P now orc st di evs1 = Ok m /\ run P evs2 m = Ok (tt, n).
Proof.
  intros P now orc st di evs1 evs2 n. unfold execute, run, bnd. destruct (start P st di (empty_node (Z.of_N now) orc)) as [[x m]| | |];
    try (split; [discriminate | intros (q & H & _); discriminate]).
  rewrite each_app. unfold bnd. destruct (each (step P) evs1 m) as [[y m1]| | |];
    try (split; [discriminate | intros (q & H & _); discriminate]). split.
  - intros H. exists m1. split; [reflexivity|]. destruct (each (step P) evs2 m1) as [[z m2]| | |]; try discriminate. injection H as <-. destruct z. reflexivity.
  - intros (q & H & H2). injection H as <-. rewrite H2. reflexivity.
Qed.
Lemma later_reachable : forall P n n', reachable P n -> later P n n' -> reachable P n'.
Proof.
  intros P n n' (now & orc & st & di & evs & H) (evs2 & H2). exists now, orc, st, di, (evs ++ evs2). apply execute_app. exists n. split; assumption.
Qed.
Lemma handles_later : forall P n dt ev n', handles P n dt ev n' -> later P n n'.
Proof. intros P n dt ev n' H. exists [(dt, ev)]. unfold run, each, bnd. unfold handles in H. rewrite H. reflexivity. Qed.
Lemma later_refl : forall P n, later P n n.
Proof. intros P n. exists []. reflexivity. Qed.

(** an event as a sequence of steps after the clock has advanced *)
Definition tick (dt : N) (n : node) : node := set_n_now (n_now n + Z.of_N dt) n.
Lemma handles_steps : forall P n dt ev n', handles P n dt ev n' -> inv P n -> inv P (tick dt n) /\ to P ev (fl_of ev) (tick dt n) n'.
Proof.
  intros P n dt ev n' H I. unfold handles, step in H. bind H as u m H1. apply modn_ok in H1. cbn [fst snd] in *.
  assert (I1 : inv P (tick dt n)) by (apply inv_tick; exact I). split; [exact I1|]. subst m. eapply handle_to; [exact H | exact I1].
Qed.

(** what holds before, and is kept by time and steps, holds later *)
Lemma later_ind : forall P (J : node -> Prop),
  (forall t n, inv P n -> 0 <= t -> J n -> J (set_n_now (n_now n + t) n)) ->
  (forall ev fl n n', nstep P ev fl n n' -> inv0 P n -> J n -> J n') ->
  forall n n', inv P n -> later P n n' -> J n -> J n' /\ inv P n'.
Proof.
  intros P J Jt Js n n' I (evs & H). unfold run in H. revert n I H. induction evs as [|[dt ev] evs IH]; intros n I H Hj; cbn [each] in H.
  - apply ret_ok in H. destruct H as [_ ->]. split; assumption.
  - bind H as u m H1. destruct u. destruct (handles_steps P n dt ev m H1 I) as [I1 [[S2 _] I2]]. apply (IH m I2 H).
    assert (J1 : J (tick dt n)) by (apply Jt; [exact I | lia | exact Hj]).
    clear H H1 Hj. assert (K : forall a b, steps P ev (fl_of ev) a b -> inv0 P a -> J a -> J b).
    { intros a b S. induction S as [|a a1 b Hs S IHS]; intros Ia Ja; [exact Ja|]. apply IHS; [eapply inv0_nstep; eassumption | eapply Js; eassumption]. }
    eapply K; [exact S2 | apply I1 | exact J1].
Qed.
Lemma reachable_ind : forall P (J : node -> Prop),
  (forall now orc, J (empty_node (Z.of_N now) orc)) ->
  (forall t n, inv P n -> 0 <= t -> J n -> J (set_n_now (n_now n + t) n)) ->
  (forall ev fl n n', nstep P ev fl n n' -> inv0 P n -> J n -> J n') ->
  forall n, reachable P n -> J n.
Proof. intros P J J0 Jt Js n (now & orc & st & di & evs & H). eapply reach_ind; eassumption. Qed.

(** ** Effects *)
Lemma nstep_out : forall P ev fl n n', nstep P ev fl n n' -> n_out n' = n_out n \/ exists o, n_out n' = (n_now n, o) :: n_out n.
Proof.
  intros P ev fl n n' H. destruct H; cbn [n_out set_n_out set_n_peers set_n_eth set_n_orc set_n_floating set_n_resolving set_n_verifying
    set_n_next_sock set_n_cur set_n_prev set_n_next_id set_n_next_sid]; try (left; reflexivity); try (right; eexists; reflexivity).
  destruct (is_established p); [right; eexists; reflexivity | left; reflexivity].
Qed.
Lemma app_same : forall A (l l' : list A), l' = l ++ l' -> l = [].
Proof. intros A l l' H. apply (f_equal (@length A)) in H. rewrite app_length in H. destruct l; [reflexivity | cbn in H; lia]. Qed.
Lemma newly_trans : forall n n1 n2 t o, (exists l, n_out n1 = l ++ n_out n) -> (exists l, n_out n2 = l ++ n_out n1) ->
  newly n n2 t o -> newly n n1 t o \/ newly n1 n2 t o.
Proof.
  intros n n1 n2 t o [l1 E1] [l2 E2] (l & E & Hin). assert (El : l = l2 ++ l1).
  { apply app_inv_tail with (n_out n). rewrite <- E, E2, E1, app_assoc. reflexivity. }
  subst l. apply in_app_or in Hin. destruct Hin as [Hin | Hin]; [right; exists l2 | left; exists l1]; split; assumption.
Qed.
Lemma steps_new : forall P ev fl n n' t o, steps P ev fl n n' -> newly n n' t o ->
  exists m1 m2, steps P ev fl n m1 /\ nstep P ev fl m1 m2 /\ steps P ev fl m2 n' /\ n_out m2 = (t, o) :: n_out m1 /\ t = n_now m1.
Proof.
  intros P ev fl n n' t o H. induction H as [n|n n1 n2 Hs S IH]; intros Hn.
  - destruct Hn as (l & E & Hin). apply app_same in E. subst l. destruct Hin.
  - apply (newly_trans n n1 n2) in Hn; [|eapply out_nstep; exact Hs | eapply out_steps; exact S]. destruct Hn as [Hn | Hn].
    + exists n, n1. split; [apply steps_refl|]. split; [exact Hs|]. split; [exact S|]. destruct Hn as (l & E & Hin).
      destruct (nstep_out _ _ _ _ _ Hs) as [E2 | [o2 E2]]; rewrite E in E2.
      * symmetry in E2. apply app_same in E2. subst l. destruct Hin.
      * change ((n_now n, o2) :: n_out n) with ([(n_now n, o2)] ++ n_out n) in E2. apply app_inv_tail in E2. subst l.
        destruct Hin as [Hin | []]. injection Hin as <- <-. split; [exact E | reflexivity].
    + destruct (IH Hn) as (m1 & m2 & S1 & S2 & S3 & E & Et). exists m1, m2. split; [eapply steps_step; eassumption|].
      split; [exact S2|]. split; [exact S3|]. split; [exact E | exact Et].
Qed.

Ltac outcbn := cbn [n_out set_n_out set_n_peers set_n_eth set_n_orc set_n_floating set_n_resolving set_n_verifying
    set_n_next_sock set_n_cur set_n_prev set_n_next_id set_n_next_sid] in *.
Lemma cons_self : forall A (x : A) l, l = x :: l -> False.
Proof. intros A x l H. apply (f_equal (@length A)) in H. cbn in H. lia. Qed.

Lemma nstep_session : forall P ev fl n n' t pid key conf initiator serial hk salt sigma method sid src, nstep P ev fl n n' ->
  n_out n' = (t, OSession pid key conf initiator serial hk salt sigma method sid src) :: n_out n ->
  exists p compat, find_id (n_peers n) pid = Some p /\ p_key p = key /\ p_conf p = conf /\ sid = n_next_sid n /\ f_es fl pid = true /\
    evidence P ev n p method initiator compat hk salt sigma serial src.
Proof.
  intros P ev fl n n' t pid key conf initiator serial hk salt sigma method sid src H E.
  destruct H; outcbn; try (exfalso; exact (cons_self _ _ _ E)); try (injection E as _ E; subst; contradiction).
  - injection E as _ E. discriminate.
  - injection E as _ E. discriminate.
  - injection E as _ E. discriminate.
  - injection E as _ E. discriminate.
  - destruct (is_established p); [injection E as _ E; discriminate | exfalso; exact (cons_self _ _ _ E)].
  - cbv zeta in E. injection E as _ -> <- <- -> -> -> -> -> -> <- ->. exists p, compat. repeat (split; [assumption || reflexivity|]). exact H3.
  - injection E as _ E. discriminate.
Qed.

(** ** C26 *)
Lemma classify_handshake : forall d pkt ctl, classify d = PHandshake pkt ctl -> pkt = d \/ pkt = skipn 12 d.
Proof.
  intros d pkt ctl H. unfold classify in H. destruct d as [|ty r]; [discriminate|]. unfold classify_inner in H.
  destruct (N.eqb ty 200).
  - destruct (Nat.ltb _ _); [discriminate|]. destruct (N.eqb _ _) in H; [|discriminate]. destruct (N.eqb _ _) in H.
    + injection H as <- _. right. reflexivity.
    + destruct (N.eqb _ _) in H; discriminate.
  - destruct (N.eqb _ _) in H; [injection H as <- _; left; reflexivity|]. destruct (N.eqb _ _) in H; discriminate.
Qed.
Lemma handled_parsed : forall c pkt ctl h, handshake_handle c pkt ctl = Ok (HProtocol h) ->
  exists h0, parse_tlvs pkt = Ok (Some h0) /\ h_records h = h_records h0 /\ h_tlv_len h = h_tlv_len h0.
Proof.
  intros c pkt ctl h H. unfold handshake_handle in H. destruct (parse_tlvs pkt) as [[h0|]| | |] eqn:E; try discriminate.
  exists h0. split; [reflexivity|]. cbn [bind] in H. destruct (negb _); [discriminate|]. destruct (as_uint8 pkt h0 R_TYPE) as [ty| | |]; try discriminate.
  cbn [bind] in H. destruct (if Nat.leb 1 _ then _ else _) as [fl| | |]; try discriminate. cbn [bind] in H. destruct (_ && _)%bool; [discriminate|].
  pose (h1 := {| h_type := ty; h_flags := fl; h_records := h_records h0; h_tlv_len := h_tlv_len h0 |}). fold h1 in H.
  assert (X : forall h2, check_records c pkt h1 = Ok (HProtocol h2) -> h2 = h1).
  { clear H. intros h2 H. unfold check_records in H.
    repeat match type of H with
    | bind ?x _ = _ => destruct x; cbn [bind] in H; try discriminate
    | (if ?b then _ else _) = _ => destruct b; try discriminate
    | (match ?x with _ => _ end) = _ => destruct x; try discriminate
    | Ok _ = Ok _ => injection H as <-; reflexivity
    end. }
  destruct (check_records c pkt h1) as [[| |h2]| | |] eqn:E2; try discriminate. cbn [bind] in H. specialize (X h2 eq_refl). subst h2.
  destruct (if (_ && _)%bool then _ else _) in H; try discriminate. cbn [bind] in H. injection H as <-. split; reflexivity.
Qed.
Lemma fld_value : forall pkt h ty len b, fld pkt h ty len = Ok (Some b) -> (0 < len)%nat -> value pkt h ty = Some b.
Proof.
  intros pkt h ty len b H Hl. unfold fld, has_field, rec_len in H. unfold value. destruct (h_records h ty) as [[o l]|] eqn:E.
  - destruct (Nat.eqb_spec l len) as [->|]; [|discriminate]. unfold rec_read in H. rewrite E in H. unfold read in H.
    destruct (Nat.leb _ _); [|discriminate]. cbn [bind] in H. injection H as <-. reflexivity.
  - destruct (Nat.eqb_spec 0 len); [lia | discriminate].
Qed.
Lemma view_values : forall pkt h w, view pkt h = Ok w ->
  (forall b, w_sender w = Some b -> value pkt h R_SENDER_KEY = Some b) /\
  (forall b, w_recipient w = Some b -> value pkt h R_RECIPIENT_KEY = Some b) /\
  (forall b, w_sender_hk w = Some b -> value pkt h R_SENDER_HANDSHAKE_KEY = Some b) /\
  (forall b, w_recipient_hk w = Some b -> value pkt h R_RECIPIENT_HANDSHAKE_KEY = Some b) /\
  (forall mac tlv0, w_mac w = Some (mac, tlv0) -> value pkt h R_TLV_MAC = Some mac /\ mac_input pkt h = Some tlv0).
Proof.
  intros pkt h w H. unfold view in H.
  destruct (fld pkt h R_SENDER_KEY KEY_LEN) as [sk| | |] eqn:E1; try discriminate. cbn [bind] in H.
  destruct (fld pkt h R_RECIPIENT_KEY KEY_LEN) as [rk| | |] eqn:E2; try discriminate. cbn [bind] in H.
  destruct (fld pkt h R_SENDER_HANDSHAKE_KEY KEY_LEN) as [sh| | |] eqn:E3; try discriminate. cbn [bind] in H.
  destruct (fld pkt h R_RECIPIENT_HANDSHAKE_KEY KEY_LEN) as [rh| | |] eqn:E4; try discriminate. cbn [bind] in H.
  destruct (fld pkt h R_TLV_MAC KEY_LEN) as [m| | |] eqn:E5; try discriminate. cbn [bind] in H.
  destruct (if Nat.eqb _ 2 then _ else _) as [mtu| | |] in H; try discriminate. cbn [bind] in H.
  destruct (fld_any pkt h R_METHOD_NAME) as [mn| | |]; try discriminate. cbn [bind] in H.
  destruct (fld_any pkt h R_METHOD_LIST) as [ml| | |]; try discriminate. cbn [bind] in H. injection H as <-.
  cbn [w_sender w_recipient w_sender_hk w_recipient_hk w_mac].
  assert (L : (0 < KEY_LEN)%nat) by (unfold KEY_LEN; lia).
  split; [intros b ->; exact (fld_value _ _ _ _ _ E1 L)|]. split; [intros b ->; exact (fld_value _ _ _ _ _ E2 L)|].
  split; [intros b ->; exact (fld_value _ _ _ _ _ E3 L)|]. split; [intros b ->; exact (fld_value _ _ _ _ _ E4 L)|].
  intros mac tlv0 Hm. destruct m as [m|]; [|discriminate]. injection Hm as <- <-. pose proof (fld_value _ _ _ _ _ E5 L) as V. split; [exact V|].
  unfold value in V. unfold mac_input. destruct (h_records h R_TLV_MAC) as [[o l]|]; [reflexivity | discriminate].
Qed.

Lemma evidence_authenticated : forall P ev n p method initiator compat hk key sigma serial src,
  evidence P ev n p method initiator compat hk key sigma serial src ->
  exists sk la d, ev = EvRecv sk la src d /\ authenticated (c_mac P) d key (p_key p) hk (c_own P) (c_eph P serial).
Proof.
  intros P ev n p method initiator compat hk key sigma serial src [E _ _ _ _ _ _ _ _].
  destruct E as (sk & la & d & pkt & ctl & h & w & mac & tlv0 & E1 & E2 & E3 & E4 & _ & E6 & E7 & E8 & E9 & E10 & E11 & _).
  exists sk, la, d. split; [exact E1|]. destruct (handled_parsed _ _ _ _ E3) as (h0 & X1 & X2 & X3).
  destruct (view_values _ _ _ E4) as (V1 & V2 & V3 & V4 & V5). destruct (V5 _ _ E10) as [V6 V7].
  exists pkt, h0, tlv0. split; [exact (classify_handshake _ _ _ E2)|]. split; [exact X1|].
  unfold value, mac_input in *. rewrite <- X2, <- X3. split; [exact (V1 _ E6)|]. split; [exact (V3 _ E8)|]. split; [exact (V2 _ E7)|].
  split; [exact (V4 _ E9)|]. split; [exact V7|]. rewrite E11. exact V6.
Qed.

Lemma session_needs_proof : forall P n dt ev n' t pid key conf initiator serial hk salt sigma method sid src,
  reachable P n -> handles P n dt ev n' ->
  newly n n' t (OSession pid key conf initiator serial hk salt sigma method sid src) ->
  exists sk la d k,
    ev = EvRecv sk la src d /\ authenticated (c_mac P) d salt key hk (c_own P) (c_eph P serial) /\
    c_shared P initiator serial key hk = Some (sigma, salt) /\
    (k = n_cur n' \/ k = n_prev n') /\ k_serial k = serial /\ n_now n' < k_valid_till k /\
    (conf = CStatic \/ conf = CDynamic) /\
    (forall p, find_id (n_peers n') pid = Some p -> p_key p = key).
Proof.
  intros P n dt ev n' t pid key conf initiator serial hk salt sigma method sid src R H Hn.
  destruct (handles_steps P n dt ev n' H (reachable_inv _ _ R)) as [I1 [[S _] I2]].
  destruct (steps_new _ _ _ _ _ _ _ S Hn) as (m1 & m2 & S1 & Hs & S2 & E & ->).
  destruct (nstep_session _ _ _ _ _ _ _ _ _ _ _ _ _ _ _ _ _ Hs E) as (p & compat & Hf & <- & <- & -> & _ & Ev).
  destruct (evidence_authenticated _ _ _ _ _ _ _ _ _ _ _ _ Ev) as (sk & la & d & Eev & Ha).
  destruct Ev as [_ Esh (k & Hk & Ek & Hv) Efr _ _ _ _ Een].
  pose proof (inv0_steps _ _ _ _ _ S1 (i_0 _ _ I1)) as Im.
  assert (S12 : steps P ev (fl_of ev) m1 n') by (eapply steps_step; eassumption).
  destruct (fresh_steps _ _ _ _ _ S12 Efr) as (_ & Ec & Ep). pose proof (now_steps _ _ _ _ _ S12) as En.
  exists sk, la, d, k. split; [exact Eev|]. split; [exact Ha|]. split; [exact Esh|]. split; [rewrite Ec, Ep; exact Hk|]. split; [exact Ek|].
  split; [rewrite En; exact Hv|]. split.
  - unfold is_enabled in Een. destruct (p_conf p); try discriminate; [left | right]; reflexivity.
  - intros p' Hp'. destruct (fix_steps _ _ _ _ _ _ _ _ S12 Im Hf Hp') as (E2 & _). exact E2.
Qed.
