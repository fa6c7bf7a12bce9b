(** C63: nodes that connect agree with each other, whatever the network does. *)
From Verif Require Import Base BufferModel NonceModel MethodModel HandshakeModel HandshakeSpec HandshakeProofs4 NodeModel NodeSpec NodeExamples NodeWire AgreeSpec AgreeProofs AgreeProofs3.
From Coq Require Import Lia.
Local Open Scope Z_scope.

(** The code covers all other records: packets with the same authenticated content have the
    same records. *)
Theorem C63_binding : forall p q h k x,
  parse_tlvs p = Ok (Some h) -> parse_tlvs q = Ok (Some k) ->
  mac_input p h = Some x -> mac_input q k = Some x ->
  (exists tag, value p h R_TLV_MAC = Some tag /\ length tag = 32%nat) ->
  (exists tag, value q k R_TLV_MAC = Some tag /\ length tag = 32%nat) ->
  forall t, t <> R_TLV_MAC -> value p h t = value q k t.
Proof. exact binding. Qed.
Print Assumptions C63_binding.

(** A session with the key of node [j] that was begun by the other side: at that time, node [j]
    already has a session for it, with the same secrets and the same method. *)
Theorem C63_responder : forall Ps, family Ps -> forall w i j dt ev n' t pid conf serial hk salt sigma method sid src,
  happens Ps w -> moves Ps w i dt ev n' ->
  newly (w i) n' t (OSession pid (c_own (Ps j)) conf false serial hk salt sigma method sid src) ->
  exists t' o', In (t', o') (n_out (w j)) /\
    paired (Ps i) (Ps j) (OSession pid (c_own (Ps j)) conf false serial hk salt sigma method sid src) o'.
Proof. exact responder_event. Qed.
Print Assumptions C63_responder.

(** ... so it holds for all sessions a node has ever had. *)
Theorem C63_responder_always : forall Ps, family Ps -> forall w i j t pid conf serial hk salt sigma method sid src,
  happens Ps w -> In (t, OSession pid (c_own (Ps j)) conf false serial hk salt sigma method sid src) (n_out (w i)) ->
  exists t' o', In (t', o') (n_out (w j)) /\
    paired (Ps i) (Ps j) (OSession pid (c_own (Ps j)) conf false serial hk salt sigma method sid src) o'.
Proof. exact responder_history. Qed.
Print Assumptions C63_responder_always.

(** Recorded packets give nothing: two sessions with a configured peer never belong to the
    same session of the other side. *)
Theorem C63_once : forall Ps, family Ps -> forall w i j newer t pid conf serial hk salt sigma method sid src older t2 o2 o',
  happens Ps w ->
  n_out (w i) = newer ++ (t, OSession pid (c_own (Ps j)) conf false serial hk salt sigma method sid src) :: older -> conf <> CDynamic ->
  In (t2, o2) older -> paired (Ps i) (Ps j) (OSession pid (c_own (Ps j)) conf false serial hk salt sigma method sid src) o' ->
  ~ paired (Ps i) (Ps j) o2 o'.
Proof. exact paired_once. Qed.
Print Assumptions C63_once.

(** A session with the key of node [j] that the node began itself: node [j] answered its
    ephemeral key, has computed the same secrets, and the method is the one that [j] prefers
    among those of the node. *)
Theorem C63_initiator : forall Ps, family Ps -> forall w i j dt ev n' t pid conf serial hk salt sigma method sid src,
  happens Ps w -> moves Ps w i dt ev n' ->
  newly (w i) n' t (OSession pid (c_own (Ps j)) conf true serial hk salt sigma method sid src) ->
  exists t' pid' dst s' m l g, In (t', OResp pid' dst s' m) (n_out (w j)) /\
    g_hk m = c_eph (Ps i) serial /\ hk = c_eph (Ps j) s' /\ g_salt m = salt /\
    c_shared (Ps j) false s' (c_own (Ps i)) (c_eph (Ps i) serial) = Some (sigma, salt) /\
    offers m (c_own (Ps i)) l /\ group_at (Ps i) (w i) pid g /\ preferred l (c_methods (Ps i) g) = Some method.
Proof. exact initiator_event. Qed.
Print Assumptions C63_initiator.

(** What is offered in a response: the methods of the peer's group, to the peer's key. *)
Theorem C63_offer : forall Ps, family Ps -> forall i n dt ev n' t pid dst serial m d,
  reachable (Ps i) n -> handles (Ps i) n dt ev n' -> newly n n' t (OResp pid dst serial m) -> g_data m = Ok d ->
  exists g key, group_at (Ps i) n pid g /\ (forall p, find_id (n_peers n') pid = Some p -> p_key p = key) /\
    (c_methods (Ps i) g <> [] -> forall pkt h, reads d pkt h -> offers m key (c_methods (Ps i) g)).
Proof. exact response_offers. Qed.
Print Assumptions C63_offer.

(** ** An execution with two of the nodes *)
Definition meet_shared (own base : N) (initiator : bool) (serial : N) (key hk : bytes) : option (bytes * bytes) :=
  if (Nat.eqb (length key) 32 && Nat.eqb (length hk) 32)%bool
  then Some (k32 ((own + nth 0 key 0) mod 256)%N, k32 ((nth 0 hk 0 + (base + serial)) mod 256)%N) else None.
Definition AP (i : nat) : params :=
  let own := N.of_nat (S i) in let base := (100 * own)%N in
  {| c_own := k32 own; c_hs := ex_hs; c_limit := fun _ => Some 1%nat;
     c_methods := fun _ => match i with O => [m_null; m_gmac] | _ => [m_gmac; m_null] end;
     c_tap := true; c_mtu := 1500; c_forward := false; c_verify := None; c_verify_group := [0%nat];
     c_shared_iface := true; c_iface_persist := true; c_null := fun m => bytes_eqb m m_null; c_force_keepalive := fun _ => false;
     c_key_ok := fun _ => true; c_eph := fun s => k32 (base + s)%N; c_shared := meet_shared own base; c_mac := toy_mac |}.

Lemma k32_inj : forall a b, k32 a = k32 b -> a = b.
Proof. intros a b H. apply (f_equal (fun l => nth 0 l 0%N)) in H. exact H. Qed.
Lemma ex_family : family AP.
Proof.
  constructor.
  - intros i j H. apply k32_inj in H. apply N2Z.inj_iff in H. rewrite !nat_N_Z in H. lia.
  - intros i s t H. apply k32_inj in H. lia.
  - intros i. apply repeat_length.
  - intros i s. apply repeat_length.
  - intros i k x. cbn [c_mac AP]. unfold toy_mac. rewrite app_length, !repeat_length. reflexivity.
  - intros i initiator s key hk r H. cbn [c_shared AP] in H. unfold meet_shared in H.
    destruct (Nat.eqb_spec (length key) 32); [|discriminate]. destruct (Nat.eqb_spec (length hk) 32); [|discriminate]. split; assumption.
  - intros i j s t. cbn [c_shared c_own c_eph AP]. unfold meet_shared.
    replace (length (k32 (N.of_nat (S i)))) with 32%nat by reflexivity. replace (length (k32 (N.of_nat (S j)))) with 32%nat by reflexivity.
    replace (length (k32 (100 * N.of_nat (S i) + s))) with 32%nat by reflexivity. replace (length (k32 (100 * N.of_nat (S j) + t))) with 32%nat by reflexivity.
    cbn [Nat.eqb andb].
    replace (nth 0 (k32 (N.of_nat (S i))) 0%N) with (N.of_nat (S i)) by reflexivity. replace (nth 0 (k32 (N.of_nat (S j))) 0%N) with (N.of_nat (S j)) by reflexivity.
    replace (nth 0 (k32 (100 * N.of_nat (S i) + s)) 0%N) with (100 * N.of_nat (S i) + s)%N by reflexivity.
    replace (nth 0 (k32 (100 * N.of_nat (S j) + t)) 0%N) with (100 * N.of_nat (S j) + t)%N by reflexivity.
    rewrite (N.add_comm (N.of_nat (S i))), (N.add_comm (100 * N.of_nat (S j) + t)). reflexivity.
  - intros i g m H. assert (X : m = m_null \/ m = m_gmac) by (destruct i; cbn in H; intuition congruence).
    destruct X as [-> | ->]; (split; [discriminate|]; vm_compute; intros X; repeat destruct X as [X|X]; try discriminate X; exact X).
  - intros i. cbn [c_hs AP]. split; [reflexivity | cbn; lia].
Qed.

Definition node_of (r : res node) : node := match r with Ok n => n | _ => empty_node 0 [] end.
Definition after (i : nat) (dt : N) (ev : event) (n : node) : node := node_of (match step (AP i) (dt, ev) n with Ok (_, n) => Ok n | _ => Bug end).
Definition data_of (r : res bytes) : bytes := match r with Ok d => d | _ => [] end.
Definition reply_in (n : node) : bytes :=
  match find (fun o => match snd o with OResp _ _ _ _ | OFin _ _ _ => true | _ => false end) (n_out n) with
  | Some (_, OResp _ _ _ m) | Some (_, OFin _ _ m) => data_of (g_data m) | _ => [] end.
Definition nA0 : node := Eval vm_compute in node_of (execute (AP 0) 1000 [0; 0; 0; 1]%N [ex_conf 2 [(None, 20%N)] false] [] [(0%N, EvTask 1)]).
Definition nB0 : node := Eval vm_compute in node_of (execute (AP 1) 5000 [] [ex_conf 1 [] true] [] []).
Definition idle (i : nat) : node := node_of (execute (AP i) 0 [] [] [] []).
Definition w0 : world := fun k => match k with O => nA0 | 1%nat => nB0 | _ => idle k end.
Definition d1 : bytes := Eval vm_compute in data_of (wire_init (AP 0) (Some (k32 2)) 1).
Definition e1 : event := EvRecv (SBound 0) 20%N 10%N d1.
Definition nB1 : node := Eval vm_compute in after 1 30 e1 nB0.
Definition w1 : world := put w0 1 nB1.
Definition d2 : bytes := Eval vm_compute in reply_in nB1.
Definition e2 : event := EvRecv (SDyn 1 0) 10%N 20%N d2.
Definition nA1 : node := Eval vm_compute in after 0 60 e2 nA0.
Definition w2 : world := put w1 0 nA1.
Definition d3 : bytes := Eval vm_compute in reply_in nA1.
Definition e3 : event := EvRecv (SBound 0) 20%N 10%N d3.
Definition nB2 : node := Eval vm_compute in after 1 30 e3 nB1.
Definition w3 : world := put w2 1 nB2.

Lemma start_ok : happens AP w0.
Proof.
  apply happens_start. intros [|[|k]]; cbn [w0].
  - split; [exists 1000%N, [0; 0; 0; 1]%N, [ex_conf 2 [(None, 20%N)] false], [], [(0%N, EvTask 1)]; vm_compute; reflexivity|].
    intros t o Hin. intros. vm_compute in Hin. repeat (destruct Hin as [Hin | Hin]; [injection Hin as _ <-; discriminate|]). destruct Hin.
  - split; [exists 5000%N, [], [ex_conf 1 [] true], [], []; vm_compute; reflexivity|].
    intros t o Hin. vm_compute in Hin. destruct Hin.
  - split; [exists 0%N, [], [], [], []; reflexivity|]. intros t o Hin. cbv in Hin. destruct Hin.
Qed.
(** A packet without a code, and a copy of one that was composed *)
Lemma plain_unforged : forall w i d p, carries d p true ->
  match parse_tlvs p with Ok (Some h) => value p h R_TLV_MAC = None | _ => True end -> unforged AP w i d.
Proof.
  intros w i d p C V j initiator s hk sigma salt pkt h x _ [(ctl & C') Hp] _ Ht.
  destruct (HandshakeProofs4.carries_unique _ _ _ _ _ C C') as [<- _]. rewrite Hp in V. congruence.
Qed.
Lemma copy_unforged : forall w i k d, composed (w k) d -> unforged AP w i d.
Proof.
  intros w i k d C j initiator s hk sigma salt pkt h x _ R Hx _. exists k, d, pkt, h. split; [exact C|]. split; assumption.
Qed.
Lemma move1 : moves AP w0 1 30 e1 nB1.
Proof.
  split; [vm_compute; reflexivity|]. cbn [e1]. apply (plain_unforged _ _ _ (skipn 12 d1)); [|vm_compute; reflexivity].
  apply (carries_control 3 (firstn 10 (skipn 2 d1))); reflexivity.
Qed.
Lemma happens1 : happens AP w1.
Proof. exact (happens_step AP w0 1 30 e1 nB1 start_ok move1). Qed.
Lemma move2 : moves AP w1 0 60 e2 nA1.
Proof.
  split; [vm_compute; reflexivity|]. cbn [e2]. apply (copy_unforged _ _ 1).
  exists 5030, 1%N, 10%N. eexists. split; [|left; exists 1%N; vm_compute; left; reflexivity]. reflexivity.
Qed.
Lemma happens2 : happens AP w2.
Proof. exact (happens_step AP w1 0 60 e2 nA1 happens1 move2). Qed.
Lemma move3 : moves AP w2 1 30 e3 nB2.
Proof.
  split; [vm_compute; reflexivity|]. cbn [e3]. apply (copy_unforged _ _ 0).
  exists 1060, 1%N, 20%N. eexists. split; [|right; vm_compute; left; reflexivity]. reflexivity.
Qed.

Definition sessA : out := OSession 1 (k32 2) CStatic true 1 (k32 201) (k32 46) (k32 3) m_gmac 0 20%N.
Definition sessB : out := OSession 1 (k32 1) CStatic false 1 (k32 101) (k32 46) (k32 3) m_gmac 0 10%N.
Example C63_nonvacuous :
  family AP /\ happens AP w2 /\ moves AP w2 1 30 e3 nB2 /\
  newly (w2 1%nat) nB2 5060 sessB /\ In (1060, sessA) (n_out (w2 O)) /\ paired (AP 1) (AP 0) sessB sessA /\
  moves AP w1 0 60 e2 nA1 /\ newly (w1 O) nA1 1060 sessA /\ offers (mk_msg (k32 101) (k32 46) (Ok d2)) (k32 1) [m_gmac; m_null].
Proof.
  split; [exact ex_family|]. split; [exact happens2|]. split; [exact move3|]. split; [|split; [|split; [|split; [exact move2|split]]]].
  - exists (firstn 3 (n_out nB2)). split; [vm_compute; reflexivity | vm_compute; right; right; left; reflexivity].
  - vm_compute. repeat (first [left; reflexivity | right]).
  - exists 1%N, CStatic, 1%N, (k32 46), (k32 3), m_gmac, 0%N, 10%N, 1%N, CStatic, 1%N, 0%N, 20%N. split; reflexivity.
  - exists (firstn 3 (n_out nA1)). split; [vm_compute; reflexivity | vm_compute; repeat (first [left; reflexivity | right])].
  - exists d2, (skipn 12 d2). destruct (parse_tlvs (skipn 12 d2)) as [[h|]| | |] eqn:E; try (vm_compute in E; discriminate E).
    exists h. split; [reflexivity|]. split.
    + split; [|exact E]. exists true. apply (carries_control 3 (firstn 10 (skipn 2 d2))); reflexivity.
    + assert (X : match parse_tlvs (skipn 12 d2) with Ok (Some h) => value (skipn 12 d2) h R_RECIPIENT_KEY = Some (k32 1) /\
        value (skipn 12 d2) h R_METHOD_LIST = Some (create_method_list [m_gmac; m_null]) | _ => False end) by (vm_compute; split; reflexivity).
      rewrite E in X. exact X.
Qed.

(** The other direction is false: the node that began the handshake is connected before the
    other one, and stays so when its last packet is lost. *)
Theorem C63_initiator_first_refuted : ~ (forall Ps, family Ps -> forall w i j t pid conf serial hk salt sigma method sid src,
  happens Ps w -> In (t, OSession pid (c_own (Ps j)) conf true serial hk salt sigma method sid src) (n_out (w i)) ->
  exists t' o', In (t', o') (n_out (w j)) /\
    paired (Ps j) (Ps i) o' (OSession pid (c_own (Ps j)) conf true serial hk salt sigma method sid src)).
Proof.
  intros H. destruct (H AP ex_family w2 O 1%nat 1060 1%N CStatic 1%N (k32 201) (k32 46) (k32 3) m_gmac 0%N 20%N happens2) as (t' & o' & Hin & Hp).
  - vm_compute. repeat (first [left; reflexivity | right]).
  - destruct Hp as (pid1 & conf1 & s1 & salt1 & sigma1 & method1 & sid1 & src1 & pid1' & conf1' & s1' & sid1' & src1' & A1 & A2).
    subst o'. vm_compute in Hin. repeat (destruct Hin as [Hin | Hin]; [discriminate Hin|]). exact Hin.
Qed.
Print Assumptions C63_initiator_first_refuted.
