From Coq Require Import Lia ZifyBool ZifyNat ZifyN.
From Verif Require Import Base BaseLemmas BufferModel MethodModel AddrModel AddrSpec AddrProofs SockModel SockSpec.
Local Open Scope N_scope.

Lemma mread_in : forall off n p x s m, off = length p -> n = length x -> m = p ++ x ++ s -> mread off n m = Ok x.
Proof.
  intros off n p x s m -> -> ->. unfold mread. rewrite !app_length.
  replace (Nat.leb _ _) with true by lia.
  rewrite skipn_app, skipn_all2, Nat.sub_diag by lia. cbn [app skipn].
  rewrite firstn_app, firstn_all2, Nat.sub_diag, firstn_O, app_nil_r by lia. reflexivity.
Qed.
Lemma mread_some : forall off n m, (off + n <= length m)%nat -> exists x, mread off n m = Ok x.
Proof. intros off n m H. unfold mread. replace (Nat.leb _ _) with true by lia. eauto. Qed.

Lemma zeros_length : forall n, length (zeros n) = n.
Proof. intros n. apply repeat_length. Qed.

(** *** Reading control messages *)
Lemma control_safe : forall fuel off ctl bound, (length ctl <= off + fuel + 15)%nat -> exists a, control_loop (S fuel) off ctl bound = Ok a.
Proof.
  induction fuel as [|fuel IH]; intros off ctl bound Hf; cbn [control_loop].
  - replace (Nat.ltb _ _) with true by (unfold CMSG_HDR; lia). eauto.
  - destruct (Nat.ltb _ (off + CMSG_HDR)) eqn:E; [eauto|]. unfold CMSG_HDR in *.
    destruct (mread_some (off + 8) 4 ctl) as (level & ->); [lia|]. cbn [bind].
    destruct (mread_some (off + 12) 4 ctl) as (type & ->); [lia|]. cbn [bind].
    destruct (_ && _)%bool.
    { match goal with |- context [Nat.ltb ?a ?b] => destruct (Nat.ltb a b) eqn:E1 end; [eauto|]. destruct (mread_some (off + 16) PKTINFO4 ctl) as (i & ->); [lia|]. cbn [bind]. eauto. }
    destruct (_ && _)%bool.
    { match goal with |- context [Nat.ltb ?a ?b] => destruct (Nat.ltb a b) eqn:E1 end; [eauto|]. destruct (mread_some (off + 16) PKTINFO6 ctl) as (i & ->); [lia|]. cbn [bind]. eauto. }
    unfold next_header. destruct (mread_some off 8 ctl) as (len & ->); [lia|]. cbn [bind].
    destruct (le_val len <? 16) eqn:E1; cbn [bind]; [eauto|].
    destruct (_ || _)%bool eqn:E2; cbn [bind]; [eauto|].
    apply IH. lia.
Qed.

Lemma handle_control_safe : forall ctl bound, exists a, handle_socket_control ctl bound = Ok a.
Proof.
  intros ctl bound. unfold handle_socket_control. destruct (Nat.ltb _ _) eqn:E; [eauto|].
  destruct (length ctl) as [|n] eqn:El; [unfold CMSG_HDR in E; lia|]. 
  destruct (control_safe n 0 ctl bound) as (a & Ha).
  - lia.
  - eauto.
Qed.

Definition local_of (t : option target) (bound : saddr) : saddr :=
  match t with
  | None => AUnspec
  | Some (T4 ip) => AInet ip (get_port bound)
  | Some (T6 ip ifindex) => AInet6 ip (get_port bound) [0; 0; 0; 0] (if is_linklocal ip then ifindex else [0; 0; 0; 0])
  end.

Lemma layout_cons : forall m r, length (layout (m :: r)) = (16 + length (m_data m) + padding (length (m_data m)) + length (layout r))%nat.
Proof. intros m r. cbn [layout]. rewrite !app_length, !le_bytes_length, zeros_length. lia. Qed.

Lemma layout_nil : forall r, (length (layout r) < 16)%nat -> r = [].
Proof. intros [|m r] H; [reflexivity|]. rewrite layout_cons in H. lia. Qed.

Lemma le4 : forall v, v < 2 ^ 32 -> le_val (le_bytes 4 v) = v.
Proof. intros v H. rewrite le_val_le_bytes. apply N.mod_small. exact H. Qed.
Lemma le8 : forall v, v < 2 ^ 64 -> le_val (le_bytes 8 v) = v.
Proof. intros v H. rewrite le_val_le_bytes. apply N.mod_small. exact H. Qed.

Lemma padding_N : forall n, (8 - N.of_nat (16 + n) mod 8) mod 8 = N.of_nat (padding n).
Proof.
  intros n. unfold padding. rewrite Nat2N.inj_mod, Nat2N.inj_sub, Nat2N.inj_mod. change (N.of_nat 8) with 8.
  replace (N.of_nat (16 + n)) with (N.of_nat n + 2 * 8) by lia. rewrite N.mod_add by lia. reflexivity.
Qed.

Lemma control_ok : forall msgs pre fuel bound, msgs <> [] -> Forall cmsg_ok msgs -> (length (layout msgs) <= fuel + 15)%nat ->
  control_loop (S fuel) (length pre) (pre ++ layout msgs) bound = Ok (local_of (target_of msgs) bound).
Proof.
  induction msgs as [|m r IH]; intros pre fuel bound Hne Hok Hf; [contradiction|].
  destruct (Forall_inv Hok) as (Hl & Ht & Hw & Hn & H4 & H6). pose proof (Forall_inv_tail Hok) as Hr.
  pose proof (layout_cons m r) as HL.
  cbn [control_loop]. rewrite app_length. unfold CMSG_HDR in *. replace (Nat.ltb _ _) with false by lia.
  rewrite (mread_in (length pre + 8) 4 (pre ++ le_bytes 8 (N.of_nat (16 + length (m_data m)))) (le_bytes 4 (m_level m))
    (le_bytes 4 (m_type m) ++ m_data m ++ zeros (padding (length (m_data m))) ++ layout r));
    [|rewrite app_length, le_bytes_length; reflexivity|rewrite le_bytes_length; reflexivity|cbn [layout]; rewrite <- !app_assoc; reflexivity].
  cbn [bind].
  rewrite (mread_in (length pre + 12) 4 (pre ++ le_bytes 8 (N.of_nat (16 + length (m_data m))) ++ le_bytes 4 (m_level m)) (le_bytes 4 (m_type m))
    (m_data m ++ zeros (padding (length (m_data m))) ++ layout r));
    [|rewrite !app_length, !le_bytes_length; lia|rewrite le_bytes_length; reflexivity|cbn [layout]; rewrite <- !app_assoc; reflexivity].
  cbn [bind]. rewrite (le4 _ Hl), (le4 _ Ht). cbn [target_of]. unfold IPPROTO_IP, IP_PKTINFO, IPPROTO_IPV6, IPV6_PKTINFO.
  destruct ((m_level m =? 0) && (m_type m =? 8)) eqn:E4.
  { assert (HD : length (m_data m) = 12%nat) by (apply H4; lia). unfold PKTINFO4.
    replace (Nat.ltb _ _) with false by lia.
    rewrite (mread_in (length pre + 16) 12 (pre ++ le_bytes 8 (N.of_nat (16 + length (m_data m))) ++ le_bytes 4 (m_level m) ++ le_bytes 4 (m_type m)) (m_data m)
      (zeros (padding (length (m_data m))) ++ layout r));
      [|rewrite !app_length, !le_bytes_length; lia|auto|cbn [layout]; rewrite <- !app_assoc; reflexivity].
    reflexivity. }
  destruct ((m_level m =? 41) && (m_type m =? 50)) eqn:E6.
  { assert (HD : length (m_data m) = 20%nat) by (apply H6; lia). unfold PKTINFO6.
    replace (Nat.ltb _ _) with false by lia.
    rewrite (mread_in (length pre + 16) 20 (pre ++ le_bytes 8 (N.of_nat (16 + length (m_data m))) ++ le_bytes 4 (m_level m) ++ le_bytes 4 (m_type m)) (m_data m)
      (zeros (padding (length (m_data m))) ++ layout r));
      [|rewrite !app_length, !le_bytes_length; lia|auto|cbn [layout]; rewrite <- !app_assoc; reflexivity].
    cbn [bind local_of]. rewrite (firstn_all2 (n := 4) (skipn 16 (m_data m))) by (rewrite skipn_length; lia). reflexivity. }
  unfold next_header.
  rewrite (mread_in (length pre) 8 pre (le_bytes 8 (N.of_nat (16 + length (m_data m))))
    (le_bytes 4 (m_level m) ++ le_bytes 4 (m_type m) ++ m_data m ++ zeros (padding (length (m_data m))) ++ layout r));
    [|reflexivity|rewrite le_bytes_length; reflexivity|reflexivity].
  cbn [bind]. rewrite le8 by lia. rewrite app_length, HL.
  replace (_ <? 16) with false by lia. rewrite padding_N.
  destruct r as [|m' r'].
  { cbn [layout length]. replace (_ || _)%bool with true by lia. reflexivity. }
  remember (m' :: r') as r eqn:Er.
  assert (H16 : (16 <= length (layout r))%nat) by (subst r; rewrite layout_cons; lia).
  replace (_ || _)%bool with false by lia. cbn [bind].
  destruct fuel as [|fuel]; [lia|].
  rewrite <- (IH (pre ++ le_bytes 8 (N.of_nat (16 + length (m_data m))) ++ le_bytes 4 (m_level m) ++ le_bytes 4 (m_type m) ++ m_data m ++ zeros (padding (length (m_data m)))) fuel bound);
    [|subst r; discriminate|exact Hr|lia].
  f_equal.
  - rewrite !app_length, !le_bytes_length, zeros_length. lia.
  - cbn [layout]. rewrite <- !app_assoc. reflexivity.
Qed.

Lemma handle_control_ok : forall msgs bound, Forall cmsg_ok msgs -> handle_socket_control (layout msgs) bound = Ok (local_of (target_of msgs) bound).
Proof.
  intros msgs bound Hok. unfold handle_socket_control. destruct msgs as [|m r]; [reflexivity|].
  pose proof (layout_cons m r) as HL. replace (Nat.ltb _ _) with false by (unfold CMSG_HDR; lia).
  destruct (length (layout (m :: r))) as [|n] eqn:En; [lia|].
  apply (control_ok (m :: r) [] n bound); [discriminate|exact Hok|lia].
Qed.

(** *** Writing control messages *)
Lemma add_pktinfo4 : forall ip port, length ip = 4%nat -> exists ctl, add_pktinfo (Some (AInet ip port)) = Ok ctl /\ asks ctl (send_from4 ip).
Proof.
  intros ip port H. destruct ip as [|a [|b [|c [|d [|]]]]]; try discriminate.
  eexists. split; [vm_compute; reflexivity|]. vm_compute. reflexivity.
Qed.
Lemma add_pktinfo6 : forall ip port flow scope, length ip = 16%nat -> wf_bytes ip -> length scope = 4%nat ->
  exists ctl, add_pktinfo (Some (AInet6 ip port flow scope)) = Ok ctl /\ asks ctl (send_from6 ip scope).
Proof.
  intros ip port flow scope H Hw Hs. unfold add_pktinfo, send_from6. rewrite <- (linklocal_iff ip H Hw).
  remember (is_linklocal ip) as ll. clear Heqll Hw.
  do 16 (destruct ip as [|? ip]; [discriminate|]). destruct ip; [|discriminate].
  do 4 (destruct scope as [|? scope]; [discriminate|]). destruct scope; [|discriminate].
  destruct ll; eexists; (split; [vm_compute; reflexivity|]); vm_compute; reflexivity.
Qed.
