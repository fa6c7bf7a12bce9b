(** Proofs about socket addresses *)
From Verif Require Import Base BaseLemmas BufferModel MethodModel AddrModel AddrSpec.
Local Open Scope N_scope.

Lemma bytes_eqb_iff : forall a b, bytes_eqb a b = true <-> a = b.
Proof. intros a b. unfold bytes_eqb. destruct (list_eq_dec N.eq_dec a b); split; congruence. Qed.
Lemma bytes_eqb_same : forall a, bytes_eqb a a = true.
Proof. intros a. apply bytes_eqb_iff. reflexivity. Qed.

Lemma split_land : forall k a b c d, b < 2 ^ k -> d < 2 ^ k -> N.land (a * 2 ^ k + b) (c * 2 ^ k + d) = N.land a c * 2 ^ k + N.land b d.
Proof.
  intros k a b c d Hb Hd.
  assert (B : forall x y, y < 2 ^ k -> forall i, N.testbit (x * 2 ^ k + y) i = if i <? k then N.testbit y i else N.testbit x (i - k)).
  { intros x y Hy i. destruct (N.ltb_spec i k) as [Hi|Hi].
    - rewrite <- (N.mod_pow2_bits_low (x * 2 ^ k + y) k i Hi). rewrite N.add_comm, N.mod_add by (apply N.pow_nonzero; discriminate).
      rewrite N.mod_small by exact Hy. reflexivity.
    - rewrite <- (N.sub_add k i) at 1 by exact Hi. rewrite <- N.div_pow2_bits.
      rewrite N.div_add_l by (apply N.pow_nonzero; discriminate). rewrite (N.div_small y) by exact Hy. rewrite N.add_0_r. reflexivity. }
  assert (Hbd : N.land b d < 2 ^ k).
  { destruct (N.eq_dec (N.land b d) 0) as [->|Hz]; [apply N.neq_0_lt_0; apply N.pow_nonzero; discriminate|].
    apply N.log2_lt_pow2; [lia|]. eapply N.le_lt_trans; [apply N.log2_land|]. destruct (N.eq_dec b 0) as [->|Hb0]; [rewrite N.land_0_l in Hz; contradiction|].
    apply N.min_lt_iff. left. apply N.log2_lt_pow2; [lia | exact Hb]. }
  apply N.bits_inj. intros i. rewrite N.land_spec, !B by assumption. destruct (i <? k); rewrite N.land_spec; reflexivity.
Qed.

Lemma linklocal_iff : forall ip, length ip = 16%nat -> wf_bytes ip -> is_linklocal ip = link_local ip.
Proof.
  intros ip Hl Hw. destruct ip as [|a [|b [|c [|d r]]]]; try discriminate.
  unfold wf_bytes, is_byte in Hw. inversion Hw as [|? ? Ha Hw1]; subst. inversion Hw1 as [|? ? Hb Hw2]; subst. inversion Hw2 as [|? ? Hc Hw3]; subst. inversion Hw3 as [|? ? Hd _]; subst.
  unfold is_linklocal, link_local. cbn [firstn].
  assert (E : be_val [a; b; c; d] = (a * 2 ^ 8 + b) * 2 ^ 16 + (c * 2 ^ 8 + d)).
  { cbn [be_val length]. replace (2 ^ (8 * N.of_nat 3)) with (2 ^ 8 * 2 ^ 16) by reflexivity. replace (2 ^ (8 * N.of_nat 2)) with (2 ^ 16) by reflexivity.
    replace (2 ^ (8 * N.of_nat 1)) with (2 ^ 8) by reflexivity. replace (2 ^ (8 * N.of_nat 0)) with 1 by reflexivity. lia. }
  rewrite E. change 0xffc00000 with ((0xff * 2 ^ 8 + 0xc0) * 2 ^ 16 + 0). change 0xfe800000 with ((0xfe * 2 ^ 8 + 0x80) * 2 ^ 16 + 0).
  rewrite split_land by (change (2 ^ 16) with 65536; lia). rewrite split_land by (change (2 ^ 8) with 256; lia). rewrite N.land_0_r.
  assert (Ea : N.land a 0xff = a).
  { change 0xff with (N.ones 8). rewrite N.land_ones. apply N.mod_small. exact Ha. }
  rewrite Ea. clear E Ea.
  assert (T : forallb (fun b => (N.land b 0xc0 <? 256) && Bool.eqb (N.land b 0xc0 =? 0x80) ((128 <=? b) && (b <? 192))) (map N.of_nat (seq 0 256)) = true) by (vm_compute; reflexivity).
  rewrite forallb_forall in T.
  assert (Hin : In b (map N.of_nat (seq 0 256))) by (apply in_map_iff; exists (N.to_nat b); split; [lia | apply in_seq; lia]).
  specialize (T b Hin). apply andb_prop in T. destruct T as [T0 T]. apply Bool.eqb_prop in T. rewrite <- andb_assoc, <- T.
  change (2 ^ 16) with 65536. change (2 ^ 8) with 256. lia.
Qed.

Lemma be_zero : forall l, be_val l = 0 <-> l = repeat 0 (length l).
Proof.
  induction l as [|x l IH]; [split; reflexivity|]. cbn [be_val length repeat].
  pose proof (pow8_pos (length l)) as Hp. split.
  - intros H. apply N.eq_add_0 in H. destruct H as [H1 H2]. apply N.eq_mul_0 in H1. destruct H1 as [-> | H1]; [|lia]. f_equal. apply IH. exact H2.
  - intros H. injection H as -> H. rewrite N.mul_0_l. apply IH in H. rewrite H. reflexivity.
Qed.
Lemma v4mapped_iff : forall ip, length ip = 16%nat -> wf_bytes ip -> is_v4mapped ip = true <-> exists ip4, ip = mapped_prefix ++ ip4.
Proof.
  intros ip Hl Hw. unfold is_v4mapped.
  do 12 (destruct ip as [|? ip]; [discriminate|]). cbn [firstn skipn].
  rewrite !andb_true_iff, !N.eqb_eq, !be_zero. cbn [length repeat]. split.
  - intros [[H1 H2] H3]. injection H1 as -> -> -> ->. injection H2 as -> -> -> ->.
    do 8 (apply wf_cons in Hw; destruct Hw as [_ Hw]).
    apply wf_cons in Hw; destruct Hw as [W1 Hw]. apply wf_cons in Hw; destruct Hw as [W2 Hw]. apply wf_cons in Hw; destruct Hw as [W3 Hw]. apply wf_cons in Hw; destruct Hw as [W4 _].
    assert (E : [b7; b8; b9; b10] = [0; 0; 255; 255]).
    { apply be_val_inj; [repeat constructor; assumption | repeat constructor; compute; reflexivity | reflexivity | exact H3]. }
    injection E as -> -> -> ->. exists ip. reflexivity.
  - intros [ip4 E]. cbn [mapped_prefix app] in E. injection E as -> -> -> -> -> -> -> -> -> -> -> -> _. repeat split.
Qed.

Lemma simplify_widen : forall ip port, length ip = 4%nat -> wf_bytes ip -> address_simplify (address_widen (AInet ip port)) = AInet ip port.
Proof.
  intros ip port Hl Hw. cbn [address_widen address_simplify].
  assert (E : is_v4mapped (repeat 0 10 ++ [0xff; 0xff] ++ ip) = true).
  { apply v4mapped_iff; [cbn [repeat app length]; rewrite Hl; reflexivity | | exists ip; reflexivity].
    change (wf_bytes (mapped_prefix ++ ip)). apply wf_app. split; [|exact Hw]. repeat constructor. }
  rewrite E. reflexivity.
Qed.
Lemma widen_simplify : forall ip port flow scope, swf (AInet6 ip port flow scope) -> is_v4mapped ip = true ->
  address_widen (address_simplify (AInet6 ip port flow scope)) = AInet6 ip port (repeat 0 4) (repeat 0 4) /\
  address_equal (address_widen (address_simplify (AInet6 ip port flow scope))) (AInet6 ip port flow scope) = true.
Proof.
  intros ip port flow scope (Hl & Hw & _) Hm. cbn [address_simplify]. rewrite Hm. cbn [address_widen].
  apply v4mapped_iff in Hm; [|exact Hl | exact Hw]. destruct Hm as [ip4 ->].
  change (repeat 0 10 ++ [0xff; 0xff] ++ skipn 12 (mapped_prefix ++ ip4)) with (mapped_prefix ++ ip4).
  split; [reflexivity|]. unfold address_equal. rewrite !bytes_eqb_same. reflexivity.
Qed.

Lemma simplify_denotes : forall a, swf a -> denotes (address_simplify a) = denotes a.
Proof.
  intros [|ip port|ip port flow scope|f] H; try reflexivity. destruct H as (Hl & Hw & _). cbn [address_simplify].
  destruct (is_v4mapped ip) eqn:E; [|reflexivity]. apply v4mapped_iff in E; [|exact Hl | exact Hw]. destruct E as [ip4 ->]. reflexivity.
Qed.
Lemma widen_denotes : forall a, swf a -> denotes (address_widen a) = denotes a.
Proof. intros [|ip port|ip port flow scope|f] H; reflexivity. Qed.

Lemma equal_denotes : forall a b, swf a -> swf b -> address_equal (address_simplify a) (address_simplify b) = true <-> denotes a = denotes b.
Proof.
  intros a b Ha Hb. rewrite <- (simplify_denotes a Ha), <- (simplify_denotes b Hb).
  assert (W : forall a, swf a -> swf (address_simplify a) /\ match address_simplify a with AInet6 ip _ _ _ => is_v4mapped ip = false | _ => True end).
  { clear. intros [|ip port|ip port flow scope|f] H; try (split; [exact H | exact I]). cbn [address_simplify].
    destruct (is_v4mapped ip) eqn:E; [|split; [exact H | exact E]]. split; [|exact I]. destruct H as (H1 & H2 & H3 & H4 & _). split; [|split; [|split; assumption]].
    - rewrite skipn_length, H1. reflexivity.
    - apply Forall_forall. intros x Hx. unfold wf_bytes in H2. rewrite Forall_forall in H2. apply H2. rewrite <- (firstn_skipn 12 ip). apply in_or_app. right. exact Hx. }
  destruct (W a Ha) as [Wa Na]. destruct (W b Hb) as [Wb Nb]. clear W Ha Hb. revert Wa Na Wb Nb. generalize (address_simplify a), (address_simplify b). clear a b.
  intros a b Wa Na Wb Nb.
  destruct a as [|ip port|ip port flow scope|f], b as [|ip' port'|ip' port' flow' scope'|f']; cbn [address_equal denotes]; try (split; [discriminate | discriminate]); try (split; reflexivity).
  - destruct (bytes_eqb ip ip') eqn:E; cbn [negb].
    + apply bytes_eqb_iff in E. subst ip'. rewrite bytes_eqb_iff. split; [intros ->; reflexivity | intros H; injection H as ->; reflexivity].
    + split; [discriminate|]. intros H. injection H as H _. rewrite H in E. rewrite bytes_eqb_same in E. discriminate.
  - split; [discriminate|]. intros H. injection H as H. exfalso.
    destruct Wb as (L & Wb & _). assert (X : is_v4mapped ip' = true) by (apply v4mapped_iff; [exact L | exact Wb | exists ip; symmetry; exact H]). congruence.
  - split; [discriminate|]. intros H. injection H as H. exfalso.
    destruct Wa as (L & Wa & _). assert (X : is_v4mapped ip = true) by (apply v4mapped_iff; [exact L | exact Wa | exists ip'; exact H]). congruence.
  - destruct Wa as (L & Wa & _). rewrite linklocal_iff by assumption.
    destruct (bytes_eqb ip ip') eqn:E; cbn [negb].
    2:{ split; [discriminate|]. intros H. injection H as H _. rewrite H in E. rewrite bytes_eqb_same in E. discriminate. }
    apply bytes_eqb_iff in E. subst ip'. destruct (bytes_eqb port port') eqn:E; cbn [negb].
    2:{ split; [discriminate|]. intros H. injection H as H _. rewrite H in E. rewrite bytes_eqb_same in E. discriminate. }
    apply bytes_eqb_iff in E. subst port'. destruct (link_local ip); [|split; reflexivity].
    rewrite bytes_eqb_iff. split; [intros ->; reflexivity | intros H; injection H as ->; reflexivity].
  - rewrite N.eqb_eq. split; [intros ->; reflexivity | intros H; injection H as ->; reflexivity].
Qed.

(** Comparing without normalising: the same, if none or both are normalised *)
Lemma equal_hash : forall a b h, address_equal a b = true -> address_hash h a = address_hash h b.
Proof.
  intros a b h H. destruct a as [|ip port|ip port flow scope|f], b as [|ip' port'|ip' port' flow' scope'|f']; cbn [address_equal address_hash] in *; try discriminate; try reflexivity.
  - destruct (bytes_eqb ip ip') eqn:E; [|discriminate]. apply bytes_eqb_iff in E. apply bytes_eqb_iff in H. subst. reflexivity.
  - destruct (bytes_eqb ip ip') eqn:E; [|discriminate]. apply bytes_eqb_iff in E. subst ip'. cbn [negb] in H.
    destruct (bytes_eqb port port') eqn:E; [|discriminate]. apply bytes_eqb_iff in E. subst port'. cbn [negb] in H.
    destruct (is_linklocal ip); [|reflexivity]. apply bytes_eqb_iff in H. subst. reflexivity.
Qed.
Lemma equal_refl : forall a, address_equal a a = true.
Proof. intros [|ip port|ip port flow scope|f]; cbn; rewrite ?bytes_eqb_same; [reflexivity | reflexivity | cbn; destruct (is_linklocal ip); reflexivity | apply N.eqb_refl]. Qed.
Lemma equal_sym : forall a b, address_equal a b = address_equal b a.
Proof.
  assert (S : forall x y, bytes_eqb x y = bytes_eqb y x).
  { intros x y. destruct (bytes_eqb x y) eqn:E; destruct (bytes_eqb y x) eqn:E'; try reflexivity.
    - apply bytes_eqb_iff in E. subst. rewrite bytes_eqb_same in E'. discriminate.
    - apply bytes_eqb_iff in E'. subst. rewrite bytes_eqb_same in E. discriminate. }
  intros [|ip port|ip port flow scope|f] [|ip' port'|ip' port' flow' scope'|f']; cbn [address_equal]; try reflexivity.
  - rewrite (S ip'), (S port'). reflexivity.
  - rewrite (S ip'), (S port'), (S scope'). destruct (bytes_eqb ip ip') eqn:E; [|reflexivity]. apply bytes_eqb_iff in E. subst. reflexivity.
  - apply N.eqb_sym.
Qed.
Lemma equal_trans : forall a b c, address_equal a b = true -> address_equal b c = true -> address_equal a c = true.
Proof.
  intros a b c. destruct a as [|ip port|ip port flow scope|f], b as [|ip' port'|ip' port' flow' scope'|f'], c as [|ip2 port2|ip2 port2 flow2 scope2|f2]; cbn [address_equal]; try discriminate; try reflexivity.
  - destruct (bytes_eqb ip ip') eqn:E; [|discriminate]. destruct (bytes_eqb ip' ip2) eqn:E2; [|discriminate]. cbn [negb]. rewrite !bytes_eqb_iff in *. subst.
    rewrite bytes_eqb_same. cbn. intros -> ->. apply bytes_eqb_same.
  - destruct (bytes_eqb ip ip') eqn:E; [|discriminate]. destruct (bytes_eqb ip' ip2) eqn:E2; [|discriminate]. cbn [negb].
    destruct (bytes_eqb port port') eqn:E3; [|discriminate]. destruct (bytes_eqb port' port2) eqn:E4; [|discriminate]. cbn [negb]. rewrite bytes_eqb_iff in E, E2, E3, E4. subst.
    rewrite !bytes_eqb_same. cbn [negb]. destruct (is_linklocal ip2); [|reflexivity]. rewrite !bytes_eqb_iff. congruence.
  - rewrite !N.eqb_eq. congruence.
Qed.
Lemma hash_defined : forall h a, (exists x, address_hash h a = Ok x) <-> match a with AInet _ _ | AInet6 _ _ _ _ => True | _ => False end.
Proof. intros h [|ip port|ip port flow scope|f]; cbn; split; try (intros [x X]; discriminate); try tauto; intros _; eexists; reflexivity. Qed.
