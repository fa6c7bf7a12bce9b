(** C33: where Ethernet frames go *)
From Verif Require Import Base BufferModel EthModel EthSpec EthProofs.

(** The sorted vector with its binary searches behaves as a map: in every run in which frames come from
    established peers, no step fails, and every frame goes where the specification says *)
Theorem C33_exact : forall h, spec_possible h spec_init -> eth_outs h eth_init = Ok (spec_outs h spec_init).
Proof. intros h. exact (outs_R h eth_init spec_init init_R). Qed.

(** A frame to an address last used less than five minutes ago by a peer that has been connected since goes to
    that peer only, and to nobody if it comes from that peer; a frame to an address used by this node goes to nobody *)
Theorem C33_known_destination : forall s0 e0 s1 out0 owner a s2 e source f expired s3 out,
  eth_reachable s0 -> possible s0 e0 -> eth_step e0 s0 = Ok (s1, out0) -> frame_from e0 owner a -> unicast a = true -> connected owner s1 ->
  eth_path (quiet owner a) s1 s2 -> (m_now s2 < m_now s0 + FIVE_MINUTES)%Z ->
  possible s2 e -> eth_step e s2 = Ok (s3, out) -> frame_to e source f expired -> firstn 6 f = a -> firstn 6 (skipn 6 f) <> a ->
  (forall p, owner = Some p -> source <> Some p -> ~ In p expired -> out = [p]) /\
  (owner = None \/ owner = source \/ (exists p, owner = Some p /\ In p expired) -> out = []).
Proof. exact known_destination. Qed.

(** A frame to an address nobody has used goes to all connected peers but the source *)
Theorem C33_unknown_destination : forall s e source f expired s' out,
  eth_path (silent (firstn 6 f)) eth_init s -> possible s e -> eth_step e s = Ok (s', out) -> frame_to e source f expired ->
  firstn 6 (skipn 6 f) <> firstn 6 f -> flooded s source expired out.
Proof. exact unknown_destination. Qed.

(** The same if the address was last used at least five minutes before the last maintenance *)
Theorem C33_forgotten_destination : forall s1 s2 s3 out3 s4 e source f expired s5 out,
  eth_reachable s1 -> eth_path (silent (firstn 6 f)) s1 s2 -> (m_now s1 + FIVE_MINUTES <= m_now s2)%Z ->
  eth_step FCleanup s2 = Ok (s3, out3) -> eth_path (silent (firstn 6 f)) s3 s4 ->
  possible s4 e -> eth_step e s4 = Ok (s5, out) -> frame_to e source f expired ->
  firstn 6 (skipn 6 f) <> firstn 6 f -> flooded s4 source expired out.
Proof. exact forgotten_destination. Qed.

(** Multicast and broadcast frames go to all connected peers but the source *)
Theorem C33_multicast : forall s e source f expired s' out,
  eth_reachable s -> possible s e -> eth_step e s = Ok (s', out) -> frame_to e source f expired ->
  unicast (firstn 6 f) = false -> flooded s source expired out.
Proof. exact multicast. Qed.

(** No step fails; no frame is sent twice to a peer, to a peer that is not connected, or back to its source; a frame
    from the interface of one peer goes to this peer only *)
Theorem C33_never_back : forall s e, eth_reachable s -> possible s e -> exists s' out, eth_step e s = Ok (s', out) /\ NoDup out /\
  (forall p, In p out -> In (p, true) (m_peers s) /\
    match e with
    | FRecv _ q _ x => p <> q /\ ~ In p x
    | FIface (Some d) _ x => p = d /\ ~ In p x
    | FIface None _ x => ~ In p x
    | _ => False
    end).
Proof. exact never_back. Qed.

Print Assumptions C33_exact.
Print Assumptions C33_known_destination.
Print Assumptions C33_unknown_destination.
Print Assumptions C33_forgotten_destination.
Print Assumptions C33_multicast.
Print Assumptions C33_never_back.

(** Three peers; peer 2 uses address 4, then frames to 4 from peers 1 and 2 and from the interface; peer 1 uses it;
    peer 1 is disconnected; five minutes pass *)
Definition frame (dst src : N) : bytes := [2;0;0;0;0;dst; 2;0;0;0;0;src; 8;0; 69]%N.
Definition ex_h : list eth_event :=
  [FAdd; FAdd; FAdd; FEstablish 1; FEstablish 2; FEstablish 3;
   FRecv true 2 (frame 9 4) []; FRecv true 1 (frame 4 7) []; FRecv true 2 (frame 4 4) []; FIface None (frame 4 8) []; FRecv true 3 (frame 8 5) [];
   FRecv true 1 (frame 9 4) []; FIface None (frame 4 8) []; FReset 1; FIface None (frame 4 8) [];
   FTime 299999; FCleanup; FIface None (frame 5 6) [3%N]; FIface None (frame 5 6) []; FTime 1; FRecv true 2 (frame 8 4) []]%N.
Example C33_exact_ex : spec_possible ex_h spec_init /\
  eth_outs ex_h eth_init = Ok [[]; []; []; []; []; []; [1; 3]; [2]; []; [2]; []; [2; 3]; [1]; []; [2; 3]; []; []; []; [2]; []; []]%N.
Proof. split; [vm_compute; repeat (split; [first [exact I | auto 6] |]); exact I | vm_compute; reflexivity]. Qed.

(** The hypotheses of the theorems about one frame *)
Fixpoint steps_ok (ok : eth_node -> eth_event -> eth_node -> Prop) (h : list eth_event) (s : eth_node) : Prop :=
  match h with
  | [] => True
  | e :: h => match eth_step e s with Ok r => possible s e /\ ok s e (fst r) /\ steps_ok ok h (fst r) | _ => False end
  end.
Lemma steps_path : forall ok h s0 s s', eth_path ok s0 s -> steps_ok ok h s -> eth_run h s = Ok s' -> eth_path ok s0 s'.
Proof.
  intros ok h. induction h as [|e h IH]; intros s0 s s' Hp Hs E; cbn [eth_run steps_ok] in *; [injection E as <-; exact Hp|].
  destruct (eth_step e s) as [[s1 out]| | |] eqn:E1; try contradiction. cbn [bind fst] in *. destruct Hs as (A & B & C). apply (IH s0 s1 s'); [|exact C | exact E]. exact (eth_path_step ok s0 s e s1 out Hp A E1 B).
Qed.
Definition ex_s (n : nat) : eth_node := match eth_run (firstn n ex_h) eth_init with Ok s => s | _ => eth_init end.

(** Frame 7 (from peer 2), frame 8 to its source *)
Example C33_known_destination_ex :
  eth_reachable (ex_s 6) /\ (exists out, eth_step (nth 6 ex_h FCleanup) (ex_s 6) = Ok (ex_s 7, out)) /\
  frame_from (nth 6 ex_h FCleanup) (Some 2%N) (firstn 6 (frame 4 7)) /\ connected (Some 2%N) (ex_s 7) /\
  eth_path (quiet (Some 2%N) (firstn 6 (frame 4 7))) (ex_s 7) (ex_s 8) /\ frame_to (FIface None (frame 4 8) []) None (frame 4 8) [] /\
  exists s3, eth_step (FIface None (frame 4 8) []) (ex_s 8) = Ok (s3, [2%N]).
Proof.
  split; [apply (steps_path _ (firstn 6 ex_h) _ eth_init); [constructor | vm_compute; auto 20 | reflexivity]|].
  split; [eexists; vm_compute; reflexivity|]. split; [vm_compute; auto 20|]. split; [vm_compute; auto|].
  split; [|split; [vm_compute; auto 20 | eexists; vm_compute; reflexivity]].
  apply (steps_path _ [nth 7 ex_h FCleanup] _ (ex_s 7)); [constructor | | vm_compute; reflexivity].
  cbn [steps_ok]. destruct (eth_step (nth 7 ex_h FCleanup) (ex_s 7)) as [[s out]| | |] eqn:E; try (vm_compute in E; discriminate E). split; [vm_compute; auto|].
  split; [|exact I]. vm_compute in E. injection E as <- _. split; [|vm_compute; auto]. intros o (_ & _ & X). vm_compute in X. discriminate X.
Qed.
Example C33_unknown_destination_ex : exists s s',
  eth_path (silent (firstn 6 (frame 9 4))) eth_init s /\ possible s (FRecv true 2 (frame 9 4) []) /\
  eth_step (FRecv true 2 (frame 9 4) []) s = Ok (s', [1; 3]%N).
Proof.
  exists (ex_s 6). eexists. split; [|split; [vm_compute; auto | vm_compute; reflexivity]]. apply (steps_path _ (firstn 6 ex_h) _ eth_init); [constructor | | reflexivity].
  vm_compute. repeat (split; [auto|]). exact I.
Qed.
Example C33_forgotten_destination_ex : exists s1 s2 s3 s', eth_reachable s1 /\ eth_path (silent (firstn 6 (frame 4 8))) s1 s2 /\ (m_now s1 + FIVE_MINUTES <= m_now s2)%Z /\
  m_eth s2 <> [] /\ eth_step FCleanup s2 = Ok (s3, []) /\ eth_step (FIface None (frame 4 8) []) s3 = Ok (s', [1; 2; 3]%N).
Proof.
  exists (ex_s 7). eexists. eexists. eexists. split; [apply (steps_path _ (firstn 7 ex_h) _ eth_init); [constructor | vm_compute; auto 20 | reflexivity]|].
  split; [apply (steps_path _ [FTime 300000] _ (ex_s 7)); [constructor | vm_compute; auto | vm_compute; reflexivity]|]. split; [vm_compute; discriminate|]. split; [discriminate|]. split; vm_compute; reflexivity.
Qed.
Example C33_multicast_ex : exists s', eth_reachable (ex_s 12) /\ eth_step (FRecv true 2 ([255;255;255;255;255;255; 2;0;0;0;0;7; 8;6] : bytes)%N [3%N]) (ex_s 12) = Ok (s', [1%N]).
Proof. eexists. split; [apply (steps_path _ (firstn 12 ex_h) _ eth_init); [constructor | vm_compute; repeat (split; [auto 6|]); exact I | reflexivity] | vm_compute; reflexivity]. Qed.
