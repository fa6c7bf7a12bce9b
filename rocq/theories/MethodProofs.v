(** Proofs about the data methods. *)
From Verif Require Import Base NonceModel BufferModel BufferProofs MethodModel MethodSpec.

Opaque alignto block_count.

(** ** Keystream lemmas *)
Lemma length_xor_ks k f l : length (xor_ks k f l) = length l.
Proof. revert f; induction l as [|b l IH]; intro f; cbn; [reflexivity|now rewrite IH]. Qed.

Lemma xor_ks_app k f a b : xor_ks k f (a ++ b) = xor_ks k f a ++ xor_ks k (f + length a) b.
Proof.
  revert f; induction a as [|x a IH]; intro f; cbn [app xor_ks length].
  - now rewrite Nat.add_0_r.
  - rewrite IH. do 3 f_equal. lia.
Qed.

Lemma xor_ks_zeros k f n : xor_ks k f (repeat 0%N n) = ks_bytes k f n.
Proof.
  unfold ks_bytes. revert f; induction n as [|n IH]; intro f; cbn [repeat xor_ks seq map]; [reflexivity|].
  now rewrite IH, N.lxor_0_l.
Qed.

Lemma xor_ks_twice k f l : xor_ks k f (xor_ks k f l) = l.
Proof.
  revert f; induction l as [|b l IH]; intro f; cbn; [reflexivity|].
  rewrite IH, N.lxor_assoc, N.lxor_nilpotent, N.lxor_0_r. reflexivity.
Qed.

Lemma length_ks_bytes k f n : length (ks_bytes k f n) = n.
Proof. unfold ks_bytes. now rewrite map_length, seq_length. Qed.

Lemma length_xor_bytes a b : length a = length b -> length (xor_bytes a b) = length a.
Proof.
  revert b; induction a as [|x a IH]; intros [|y b] H; cbn in *; try discriminate; [reflexivity|].
  rewrite IH by lia. reflexivity.
Qed.

Lemma xor_ks_as_xor_bytes k f l : xor_ks k f l = xor_bytes l (ks_bytes k f (length l)).
Proof.
  revert f; induction l as [|x l IH]; intro f; cbn [xor_ks length]; [reflexivity|].
  rewrite IH. reflexivity.
Qed.

Lemma xor_bytes_comm a b : xor_bytes a b = xor_bytes b a.
Proof.
  revert b; induction a as [|x a IH]; intros [|y b]; cbn; try reflexivity.
  now rewrite IH, N.lxor_comm.
Qed.

Lemma xor_bytes_cancel a b : length a = length b -> xor_bytes a (xor_bytes a b) = b.
Proof.
  revert b; induction a as [|x a IH]; intros [|y b] H; cbn in *; try discriminate; [reflexivity|].
  rewrite IH by lia. now rewrite <- N.lxor_assoc, N.lxor_nilpotent, N.lxor_0_l.
Qed.

(** ** Padding *)
Lemma length_pad16 l : length (pad16 l) = alignto (length l) 16.
Proof.
  unfold pad16. rewrite app_length, repeat_length.
  Transparent alignto block_count. unfold alignto, block_count. Opaque alignto block_count. lia.
Qed.

Lemma block_count_16 n : 16 * block_count n 16 = alignto n 16.
Proof. Transparent alignto. unfold alignto. Opaque alignto. lia. Qed.

Lemma pad16_alignto l : pad16 l = l ++ repeat 0%N (alignto (length l) 16 - length l).
Proof.
  unfold pad16. do 2 f_equal.
  Transparent alignto block_count. unfold alignto, block_count. Opaque alignto block_count. lia.
Qed.

Lemma alignto_add16 n k : alignto (16 * k + n) 16 = 16 * k + alignto n 16.
Proof. Transparent alignto block_count. unfold alignto, block_count. Opaque alignto block_count. lia. Qed.

Lemma pad16_app a b : length a mod 16 = 0 -> pad16 (a ++ b) = a ++ pad16 b.
Proof.
  intro H. unfold pad16. rewrite app_length, <- app_assoc.
  replace ((length a + length b) mod 16) with (length b mod 16) by lia. reflexivity.
Qed.

(** Memory after the end of the data has been zeroed to the block boundary:
    reading whole blocks from any block boundary [o] gives padded data. *)
Lemma zeroed_blocks m e o :
  length m mod 16 = 0 -> e <= length m -> o <= e -> o mod 16 = 0 ->
  slice (overwrite m e (repeat 0%N (alignto e 16 - e))) o (16 * block_count (e - o) 16)
  = pad16 (slice m o (e - o)).
Proof.
  intros Hm He Ho Hal. rewrite block_count_16, pad16_alignto, length_slice by lia.
  pose proof (alignto_16_bounds e) as [B1 [B2 B3]].
  assert (Hk : alignto e 16 = o + alignto (e - o) 16).
  { replace e with (16 * (o / 16) + (e - o)) at 1 by lia. rewrite alignto_add16. lia. }
  pose proof (alignto_16_bounds (e - o)) as [C1 [C2 C3]].
  replace (alignto (e - o) 16) with ((e - o) + (alignto e 16 - e)) at 1 by lia.
  rewrite slice_add. rewrite slice_overwrite_before by lia.
  replace (o + (e - o)) with e by lia.
  f_equal.
  replace (alignto (e - o) 16 - (e - o)) with (alignto e 16 - e) by lia.
  apply slice_overwrite_eq; rewrite ?repeat_length; lia.
Qed.

Ltac len :=
  cbn [b_off b_mem b_len length];
  repeat first [ rewrite repeat_length | rewrite length_overwrite by len ];
  cbn [length]; lia.

(** ** The common header *)
Lemma put_header_ok s out :
  length (s_send s) = 6 -> 8 <= b_off out -> b_off out + b_len out <= length (b_mem out) ->
  exists m', put_header s out =
    Ok ({| b_mem := m'; b_off := b_off out - 8; b_len := b_len out + 8 |},
        set_send s (increment_nonce (s_send s)))
  /\ length m' = length (b_mem out)
  /\ slice m' (b_off out - 8) (b_len out + 8)
     = (packet_type (s_compat s) :: 0%N :: s_send s) ++ b_data out.
Proof.
  intros Hn Ho Hl. unfold put_header.
  rewrite b_push_from_ok by lia. cbn [bind].
  rewrite b_push_from_ok by len. cbn [bind].
  rewrite b_push_from_ok by len.
  cbn [bind b_mem b_off b_len length]. rewrite Hn.
  remember (overwrite (b_mem out) (b_off out - 6) (s_send s)) as m1 eqn:M1.
  remember (overwrite m1 (b_off out - 6 - 1) [0%N]) as m2 eqn:M2.
  assert (L1 : length m1 = length (b_mem out)) by (subst m1; apply length_overwrite; lia).
  assert (L2 : length m2 = length (b_mem out)) by (rewrite M2, length_overwrite; cbn [length]; lia).
  eexists. split; [|split].
  - f_equal. f_equal. f_equal; lia.
  - rewrite length_overwrite; cbn [length]; lia.
  - replace (b_off out - 8) with (b_off out - 6 - 1 - 1) by lia.
    replace (b_len out + 8) with (1 + (1 + (6 + b_len out))) by lia.
    rewrite !slice_add.
    replace (b_off out - 6 - 1 - 1 + 1) with (b_off out - 6 - 1) by lia.
    replace (b_off out - 6 - 1 + 1) with (b_off out - 6) by lia.
    replace (b_off out - 6 + 6) with (b_off out) by lia.
    assert (E0 : slice (overwrite m2 (b_off out - 6 - 1 - 1) [packet_type (s_compat s)]) (b_off out - 6 - 1 - 1) 1 = [packet_type (s_compat s)]).
    { apply (slice_overwrite_same m2 (b_off out - 6 - 1 - 1) [packet_type (s_compat s)]). lia. }
    rewrite E0.
    rewrite !(slice_overwrite_after m2) by (cbn [length]; lia).
    assert (E1 : slice m2 (b_off out - 6 - 1) 1 = [0%N]).
    { rewrite M2. apply (slice_overwrite_same m1 (b_off out - 6 - 1) [0%N]). lia. }
    rewrite E1, M2. rewrite !(slice_overwrite_after m1) by (cbn [length]; lia).
    assert (E2 : slice m1 (b_off out - 6) 6 = s_send s).
    { rewrite M1. apply slice_overwrite_eq; lia. }
    rewrite E2, M1.
    rewrite slice_overwrite_after by lia. reflexivity.
Qed.

(** ** Encryption *)
Definition enc_good (sl : sealing) (sh : shape) (cy : crypto) (mb : nat) (s : session) (p : bytes)
    (r : res enc_result) : Prop :=
  match r with
  | Ok None => total cy sl -> False
  | Ok (Some (out, s')) =>
      seal sl sh (cy_ivlen cy) (cy_mac_ivlen cy) (s_compat s) (s_send s) p = Some (b_data out) /\
      s' = set_send s (increment_nonce (s_send s)) /\
      buf_wf mb out /\ b_len out = length p + provider_overhead sh
  | _ => False
  end.

Lemma buf_eta_data m o n : b_data {| b_mem := m; b_off := o; b_len := n |} = slice m o n.
Proof. reflexivity. Qed.

(** tag and header added to an output buffer holding block 0 and ciphertext *)
Lemma finish_mac_encrypt s m p_len c tag mb :
  length (s_send s) = 6 -> length m = mb -> length c = p_len -> length tag = 16 ->
  32 + p_len <= mb -> slice m 32 p_len = c ->
  exists out,
    put_header s {| b_mem := overwrite m 16 tag; b_off := 16; b_len := 16 + p_len |}
      = Ok (out, set_send s (increment_nonce (s_send s))) /\
    buf_wf mb out /\ b_len out = p_len + 24 /\
    b_data out = (packet_type (s_compat s) :: 0%N :: s_send s) ++ tag ++ c.
Proof.
  intros Hs Hm Hc Ht Hsz Hsl.
  destruct (put_header_ok s {| b_mem := overwrite m 16 tag; b_off := 16; b_len := 16 + p_len |} Hs) as [m' [E [L S]]];
    cbn [b_off b_len b_mem] in *; try (len).
  rewrite E. eexists. split; [reflexivity|].
  rewrite length_overwrite in L by lia.
  split; [|split].
  - split; cbn [b_mem b_off b_len]; lia.
  - cbn [b_len]. lia.
  - unfold b_data at 1. cbn [b_mem b_off b_len]. rewrite S. f_equal.
    rewrite buf_eta_data, slice_add.
    f_equal.
    + apply slice_overwrite_eq; lia.
    + rewrite slice_overwrite_after by lia. exact Hsl.
Qed.

Lemma generic_mac_encrypt_good cf cy sl s b g :
  computes cy sl -> length (s_send s) = 6 -> enc_ready cf GenericMac b g ->
  enc_good sl GenericMac cy (m_max_buffer cf) s (b_data b) (session_encrypt cf cy GenericMac s b g).
Proof.
  intros [Hcr [_ [Hdg [Hdl _]]]] Hs [Hmb [Hg [[Hm Hfit] [Hal [Hhr Hsp]]]]].
  cbn [provider_encrypt_headroom enc_space] in *.
  unfold session_encrypt. rewrite b_zero_pad_ok by lia. cbn [bind method_encrypt].
  unfold generic_mac_encrypt.
  pose proof (zeroed_blocks (b_mem b) (b_off b + b_len b) (b_off b)) as HZ.
  replace (b_off b + b_len b - b_off b) with (b_len b) in HZ by lia.
  specialize (HZ ltac:(lia) ltac:(lia) ltac:(lia) ltac:(lia)).
  remember (overwrite (b_mem b) (b_off b + b_len b)
              (repeat 0%N (alignto (b_off b + b_len b) 16 - (b_off b + b_len b)))) as m0 eqn:Em0.
  pose proof (alignto_16_bounds (b_off b + b_len b)) as [A1 [A2 A3]].
  pose proof (alignto_fits (b_off b + b_len b) (m_max_buffer cf) Hmb Hfit) as A4.
  assert (Lm0 : length m0 = m_max_buffer cf).
  { subst m0. rewrite length_overwrite; rewrite ?repeat_length; lia. }
  unfold b_push_zero. rewrite b_push_from_ok by len.
  cbn [bind b_mem b_off b_len]. rewrite repeat_length.
  change COMMON_HEADROOM with 16.
  rewrite b_alloc_ok by lia. cbn [bind b_mem b_off b_len].
  set (m1 := overwrite m0 (b_off b - 16) (repeat 0%N 16)).
  assert (Lm1 : length m1 = m_max_buffer cf).
  { unfold m1. len. }
  assert (Hbc : 16 * block_count (b_len b + 16) 16 = 16 + alignto (b_len b) 16).
  { rewrite block_count_16. rewrite (Nat.add_comm (b_len b)). apply (alignto_add16 (b_len b) 1). }
  pose proof (alignto_fits (b_len b) (m_max_buffer cf - 32)) as A5.
  pose proof (alignto_16_bounds (b_len b)) as [D1 [D2 D3]].
  assert (A6 : alignto (b_len b) 16 <= m_max_buffer cf - 32) by (apply A5; lia).
  assert (A7 : b_off b + alignto (b_len b) 16 = alignto (b_off b + b_len b) 16).
  { replace (b_off b + b_len b) with (16 * (b_off b / 16) + b_len b) by lia.
    rewrite alignto_add16. lia. }
  rewrite read_blocks_ok by lia. cbn [bind].
  rewrite Hbc.
  assert (Hin : slice m1 (b_off b - 16) (16 + alignto (b_len b) 16) = repeat 0%N 16 ++ pad16 (b_data b)).
  { rewrite slice_add. f_equal.
    - unfold m1. apply (slice_overwrite_same m0 (b_off b - 16) (repeat 0%N 16)). lia.
    - replace (b_off b - 16 + 16) with (b_off b) by lia.
      unfold m1. rewrite slice_overwrite_after by (rewrite ?repeat_length; lia).
      rewrite block_count_16 in HZ. exact HZ. }
  rewrite Hin.
  destruct (cy_crypt cy (expand_nonce (s_send s) (cy_ivlen cy)) (repeat 0%N 16 ++ pad16 (b_data b))) as [y|] eqn:Ey;
    [|intros [Ht _]; exact (Ht _ _ Ey)].
  apply Hcr in Ey.
  set (k := sl_ks sl (expand_nonce (s_send s) (cy_ivlen cy))) in *.
  assert (Lp : length (b_data b) = b_len b) by (unfold b_data; apply length_slice; lia).
  set (c := xor_ks k 16 (b_data b)).
  assert (Lc : length c = b_len b) by (unfold c; now rewrite length_xor_ks).
  assert (Ey' : exists z, y = ks_bytes k 0 16 ++ c ++ z /\ length z = alignto (b_len b) 16 - b_len b).
  { exists (xor_ks k (16 + b_len b) (repeat 0%N (alignto (b_len b) 16 - b_len b))). split.
    - rewrite Ey, xor_ks_app, xor_ks_zeros, repeat_length, pad16_alignto, xor_ks_app, Lp. reflexivity.
    - now rewrite length_xor_ks, repeat_length. }
  clear Ey Hin. destruct Ey' as [z [Ey Lz]].
  assert (Ly : length y = 16 + alignto (b_len b) 16).
  { rewrite Ey, !app_length, length_ks_bytes. lia. }
  rewrite write_blocks_ok by (lia || reflexivity). cbn [bind].
  set (m2 := overwrite g 16 y).
  assert (Lm2 : length m2 = m_max_buffer cf) by (unfold m2; rewrite length_overwrite; lia).
  rewrite b_zero_pad_ok by (cbn [b_mem b_off b_len]; lia). cbn [bind b_mem b_off b_len].
  set (e := 16 + (b_len b + 16)).
  pose proof (zeroed_blocks m2 e 32) as HZ2.
  assert (He : e - 32 = b_len b) by (unfold e; lia). rewrite He in HZ2.
  specialize (HZ2 ltac:(lia) ltac:(lia) ltac:(lia) eq_refl).
  assert (B1 : alignto e 16 = 32 + alignto (b_len b) 16).
  { unfold e. replace (16 + (b_len b + 16)) with (16 * 2 + b_len b) by lia. apply alignto_add16. }
  set (m3 := overwrite m2 e (repeat 0%N (alignto e 16 - e))) in *.
  assert (Lm3 : length m3 = m_max_buffer cf).
  { unfold m3. len. }
  assert (S2 : slice m2 32 (b_len b) = c).
  { unfold m2. rewrite (slice_overwrite_in g 16 y 16) by lia. rewrite Ey.
    rewrite slice_app_r by (rewrite length_ks_bytes; lia). rewrite length_ks_bytes.
    rewrite slice_app_l by lia. rewrite <- Lc. apply slice_all. }
  assert (S3 : slice m3 32 (b_len b) = c).
  { unfold m3. rewrite slice_overwrite_before by lia. exact S2. }
  assert (S0 : slice m3 16 16 = ks_bytes k 0 16).
  { unfold m3. rewrite slice_overwrite_before by lia. unfold m2.
    rewrite slice_overwrite_in0 by lia. rewrite Ey.
    rewrite slice_app_l by (rewrite length_ks_bytes; lia).
    rewrite <- (length_ks_bytes k 0 16) at 2. apply slice_all. }
  replace (b_len b + 16 - 16) with (b_len b) by lia.
  rewrite read_blocks_ok by (try reflexivity; rewrite block_count_16; lia). cbn [bind].
  change (16 + 16) with 32. rewrite HZ2, S2.
  destruct (cy_digest cy (pad16 c) (b_len b)) as [d|] eqn:Ed;
    [|intros [_ [_ [Ht Hn]]]; rewrite Ht in Ed; exact (Hn _ _ Ed)].
  apply Hdg in Ed. assert (Ld : length d = 16) by (eapply Hdl; exact Ed).
  rewrite read_blocks_ok by (try reflexivity; lia). cbn [bind]. change (16 * 1) with 16. rewrite S0.
  assert (Lt : length (xor_bytes (ks_bytes k 0 16) d) = 16).
  { rewrite length_xor_bytes; rewrite length_ks_bytes; lia. }
  rewrite write_blocks_ok by (try reflexivity; lia). cbn [bind].
  rewrite (Nat.add_comm (b_len b) 16).
  destruct (finish_mac_encrypt s m3 (b_len b) c _ (m_max_buffer cf) Hs Lm3 Lc Lt ltac:(lia) S3) as [out [E [W [Lo D]]]].
  rewrite E. cbn [bind enc_good]. refine (conj _ (conj eq_refl (conj W _))).
  - cbn [seal]. fold k. fold c. rewrite Lc, Ed. rewrite D. reflexivity.
  - rewrite Lp. cbn [provider_overhead]. exact Lo.
Qed.

Lemma composed_mac_encrypt_good cf cy sl s b g :
  computes cy sl -> length (s_send s) = 6 -> enc_ready cf ComposedMac b g ->
  enc_good sl ComposedMac cy (m_max_buffer cf) s (b_data b) (session_encrypt cf cy ComposedMac s b g).
Proof.
  intros [Hcr [Hmcr [Hdg [Hdl _]]]] Hs [Hmb [Hg [[Hm Hfit] [Hal [Hhr Hsp]]]]].
  cbn [provider_encrypt_headroom enc_space] in *.
  unfold session_encrypt. rewrite b_zero_pad_ok by lia. cbn [bind method_encrypt].
  unfold composed_mac_encrypt.
  pose proof (zeroed_blocks (b_mem b) (b_off b + b_len b) (b_off b)) as HZ.
  replace (b_off b + b_len b - b_off b) with (b_len b) in HZ by lia.
  specialize (HZ ltac:(lia) ltac:(lia) ltac:(lia) ltac:(lia)).
  remember (overwrite (b_mem b) (b_off b + b_len b)
              (repeat 0%N (alignto (b_off b + b_len b) 16 - (b_off b + b_len b)))) as m0 eqn:Em0.
  pose proof (alignto_16_bounds (b_off b + b_len b)) as [A1 [A2 A3]].
  pose proof (alignto_fits (b_off b + b_len b) (m_max_buffer cf) Hmb Hfit) as A4.
  assert (Lm0 : length m0 = m_max_buffer cf).
  { subst m0. rewrite length_overwrite; rewrite ?repeat_length; lia. }
  change COMMON_HEADROOM with 16.
  cbn [b_mem b_off b_len].
  rewrite b_alloc_ok by lia. cbn [bind b_mem b_off b_len].
  pose proof (alignto_fits (b_len b) (m_max_buffer cf - 32)) as A5.
  pose proof (alignto_16_bounds (b_len b)) as [D1 [D2 D3]].
  assert (A6 : alignto (b_len b) 16 <= m_max_buffer cf - 32) by (apply A5; lia).
  assert (A7 : b_off b + alignto (b_len b) 16 = alignto (b_off b + b_len b) 16).
  { replace (b_off b + b_len b) with (16 * (b_off b / 16) + b_len b) by lia.
    rewrite alignto_add16. lia. }
  destruct (cy_mac_crypt cy (expand_nonce (s_send s) (cy_mac_ivlen cy)) (repeat 0%N 16)) as [k0|] eqn:Ek0;
    [|intros [_ [Ht _]]; exact (Ht _ _ Ek0)].
  apply Hmcr in Ek0. rewrite xor_ks_zeros in Ek0.
  set (mk := sl_mac_ks sl (expand_nonce (s_send s) (cy_mac_ivlen cy))) in *.
  assert (Lk0 : length k0 = 16) by (rewrite Ek0; apply length_ks_bytes).
  rewrite write_blocks_ok by (try reflexivity; lia). cbn [bind].
  rewrite read_blocks_ok by (try lia; rewrite block_count_16; lia). cbn [bind].
  rewrite HZ.
  destruct (cy_crypt cy (expand_nonce (s_send s) (cy_ivlen cy)) (pad16 (slice (b_mem b) (b_off b) (b_len b)))) as [y|] eqn:Ey;
    [|intros [Ht _]; exact (Ht _ _ Ey)].
  apply Hcr in Ey.
  set (k := sl_ks sl (expand_nonce (s_send s) (cy_ivlen cy))) in *.
  change (slice (b_mem b) (b_off b) (b_len b)) with (b_data b) in *.
  assert (Lp : length (b_data b) = b_len b) by (unfold b_data; apply length_slice; lia).
  set (c := xor_ks k 0 (b_data b)).
  assert (Lc : length c = b_len b) by (unfold c; now rewrite length_xor_ks).
  assert (Ey' : exists z, y = c ++ z /\ length z = alignto (b_len b) 16 - b_len b).
  { exists (xor_ks k (0 + b_len b) (repeat 0%N (alignto (b_len b) 16 - b_len b))). split.
    - rewrite Ey, pad16_alignto, xor_ks_app, Lp. reflexivity.
    - now rewrite length_xor_ks, repeat_length. }
  clear Ey. destruct Ey' as [z [Ey Lz]].
  assert (Ly : length y = alignto (b_len b) 16) by (rewrite Ey, app_length; lia).
  rewrite write_blocks_ok by (try reflexivity; len). cbn [bind].
  change (16 + 16) with 32.
  set (m2 := overwrite (overwrite g 16 k0) 32 y).
  assert (Lm2 : length m2 = m_max_buffer cf) by (unfold m2; len).
  rewrite b_zero_pad_ok by (cbn [b_mem b_off b_len]; lia). cbn [bind b_mem b_off b_len].
  set (e := 16 + (16 + b_len b)).
  pose proof (zeroed_blocks m2 e 32) as HZ2.
  assert (He : e - 32 = b_len b) by (unfold e; lia). rewrite He in HZ2.
  specialize (HZ2 ltac:(lia) ltac:(lia) ltac:(lia) eq_refl).
  assert (B1 : alignto e 16 = 32 + alignto (b_len b) 16).
  { unfold e. replace (16 + (16 + b_len b)) with (16 * 2 + b_len b) by lia. apply alignto_add16. }
  set (m3 := overwrite m2 e (repeat 0%N (alignto e 16 - e))) in *.
  assert (Lm3 : length m3 = m_max_buffer cf).
  { unfold m3. len. }
  assert (S2 : slice m2 32 (b_len b) = c).
  { unfold m2. rewrite slice_overwrite_in0 by (len). rewrite Ey.
    rewrite slice_app_l by lia. rewrite <- Lc. apply slice_all. }
  assert (S3 : slice m3 32 (b_len b) = c).
  { unfold m3. rewrite slice_overwrite_before by lia. exact S2. }
  assert (S0 : slice m3 16 16 = ks_bytes mk 0 16).
  { unfold m3. rewrite slice_overwrite_before by lia. unfold m2.
    rewrite slice_overwrite_before by (len).
    rewrite <- Ek0. apply slice_overwrite_eq; lia. }
  replace (16 + b_len b - 16) with (b_len b) by lia.
  rewrite read_blocks_ok by (try reflexivity; rewrite block_count_16; lia). cbn [bind].
  change (16 + 16) with 32. rewrite HZ2, S2.
  destruct (cy_digest cy (pad16 c) (b_len b)) as [d|] eqn:Ed;
    [|intros [_ [_ [Ht Hn]]]; rewrite Ht in Ed; exact (Hn _ _ Ed)].
  apply Hdg in Ed. assert (Ld : length d = 16) by (eapply Hdl; exact Ed).
  rewrite read_blocks_ok by (try reflexivity; lia). cbn [bind]. change (16 * 1) with 16. rewrite S0.
  assert (Lt : length (xor_bytes (ks_bytes mk 0 16) d) = 16).
  { rewrite length_xor_bytes; rewrite length_ks_bytes; lia. }
  rewrite write_blocks_ok by (try reflexivity; lia). cbn [bind].
  destruct (finish_mac_encrypt s m3 (b_len b) c _ (m_max_buffer cf) Hs Lm3 Lc Lt ltac:(lia) S3) as [out [E [W [Lo D]]]].
  rewrite E. cbn [bind enc_good]. refine (conj _ (conj eq_refl (conj W _))).
  - cbn [seal]. fold k. fold mk. fold c. rewrite Lc, Ed. rewrite D. reflexivity.
  - rewrite Lp. cbn [provider_overhead]. exact Lo.
Qed.

Lemma poly1305_encrypt_good cf cy sl s b g :
  computes cy sl -> length (s_send s) = 6 -> enc_ready cf Poly1305 b g ->
  enc_good sl Poly1305 cy (m_max_buffer cf) s (b_data b) (session_encrypt cf cy Poly1305 s b g).
Proof.
  intros [Hcr [_ [_ [_ [Hpo Hpl]]]]] Hs [Hmb [Hg [[Hm Hfit] [Hal [Hhr Hsp]]]]].
  cbn [provider_encrypt_headroom enc_space] in *.
  unfold session_encrypt. rewrite b_zero_pad_ok by lia. cbn [bind method_encrypt].
  unfold poly1305_encrypt.
  pose proof (zeroed_blocks (b_mem b) (b_off b + b_len b) (b_off b)) as HZ.
  replace (b_off b + b_len b - b_off b) with (b_len b) in HZ by lia.
  specialize (HZ ltac:(lia) ltac:(lia) ltac:(lia) ltac:(lia)).
  remember (overwrite (b_mem b) (b_off b + b_len b)
              (repeat 0%N (alignto (b_off b + b_len b) 16 - (b_off b + b_len b)))) as m0 eqn:Em0.
  pose proof (alignto_16_bounds (b_off b + b_len b)) as [A1 [A2 A3]].
  pose proof (alignto_fits (b_off b + b_len b) (m_max_buffer cf) Hmb Hfit) as A4.
  assert (Lm0 : length m0 = m_max_buffer cf).
  { subst m0. rewrite length_overwrite; rewrite ?repeat_length; lia. }
  unfold b_push_zero. rewrite b_push_from_ok by len.
  cbn [bind b_mem b_off b_len]. rewrite repeat_length.
  change COMMON_HEADROOM with 16.
  rewrite b_alloc_ok by lia. cbn [bind b_mem b_off b_len].
  set (m1 := overwrite m0 (b_off b - 32) (repeat 0%N 32)).
  assert (Lm1 : length m1 = m_max_buffer cf).
  { unfold m1. len. }
  assert (Hbc : 16 * block_count (b_len b + 32) 16 = 32 + alignto (b_len b) 16).
  { rewrite block_count_16. rewrite (Nat.add_comm (b_len b)). apply (alignto_add16 (b_len b) 2). }
  pose proof (alignto_fits (b_len b) (m_max_buffer cf - 48)) as A5.
  pose proof (alignto_16_bounds (b_len b)) as [D1 [D2 D3]].
  assert (A6 : alignto (b_len b) 16 <= m_max_buffer cf - 48) by (apply A5; lia).
  assert (A7 : b_off b + alignto (b_len b) 16 = alignto (b_off b + b_len b) 16).
  { replace (b_off b + b_len b) with (16 * (b_off b / 16) + b_len b) by lia.
    rewrite alignto_add16. lia. }
  rewrite read_blocks_ok by lia. cbn [bind].
  rewrite Hbc.
  assert (Hin : slice m1 (b_off b - 32) (32 + alignto (b_len b) 16) = repeat 0%N 32 ++ pad16 (b_data b)).
  { rewrite slice_add. f_equal.
    - unfold m1. apply (slice_overwrite_same m0 (b_off b - 32) (repeat 0%N 32)). lia.
    - replace (b_off b - 32 + 32) with (b_off b) by lia.
      unfold m1. rewrite slice_overwrite_after by (rewrite ?repeat_length; lia).
      rewrite block_count_16 in HZ. exact HZ. }
  rewrite Hin.
  destruct (cy_crypt cy (expand_nonce (s_send s) (cy_ivlen cy)) (repeat 0%N 32 ++ pad16 (b_data b))) as [y|] eqn:Ey;
    [|intros [Ht _]; exact (Ht _ _ Ey)].
  apply Hcr in Ey.
  set (k := sl_ks sl (expand_nonce (s_send s) (cy_ivlen cy))) in *.
  assert (Lp : length (b_data b) = b_len b) by (unfold b_data; apply length_slice; lia).
  set (c := xor_ks k 32 (b_data b)).
  assert (Lc : length c = b_len b) by (unfold c; now rewrite length_xor_ks).
  assert (Ey' : exists z, y = ks_bytes k 0 32 ++ c ++ z /\ length z = alignto (b_len b) 16 - b_len b).
  { exists (xor_ks k (32 + b_len b) (repeat 0%N (alignto (b_len b) 16 - b_len b))). split.
    - rewrite Ey, xor_ks_app, xor_ks_zeros, repeat_length, pad16_alignto, xor_ks_app, Lp. reflexivity.
    - now rewrite length_xor_ks, repeat_length. }
  clear Ey Hin. destruct Ey' as [z [Ey Lz]].
  assert (Ly : length y = 32 + alignto (b_len b) 16).
  { rewrite Ey, !app_length, length_ks_bytes. lia. }
  rewrite write_blocks_ok by (lia || reflexivity). cbn [bind b_mem b_off b_len].
  set (m2 := overwrite g 16 y).
  assert (Lm2 : length m2 = m_max_buffer cf) by (unfold m2; rewrite length_overwrite; lia).
  assert (S2 : slice m2 48 (b_len b) = c).
  { unfold m2. rewrite (slice_overwrite_in g 16 y 32) by lia. rewrite Ey.
    rewrite slice_app_r by (rewrite length_ks_bytes; lia). rewrite length_ks_bytes.
    rewrite slice_app_l by lia. rewrite <- Lc. apply slice_all. }
  assert (S0 : slice m2 16 32 = ks_bytes k 0 32).
  { unfold m2. rewrite slice_overwrite_in0 by lia. rewrite Ey.
    rewrite slice_app_l by (rewrite length_ks_bytes; lia).
    rewrite <- (length_ks_bytes k 0 32) at 2. apply slice_all. }
  rewrite read_ok by lia. cbn [bind]. rewrite S0.
  rewrite b_pull_ok by (cbn [b_len]; lia). cbn [bind b_mem b_off b_len].
  change (16 + 32) with 48. replace (b_len b + 32 - 32) with (b_len b) by lia.
  rewrite read_ok by lia. cbn [bind]. rewrite S2, Hpo.
  set (t := sl_poly sl c (ks_bytes k 0 32)).
  assert (Lt : length t = 16) by apply Hpl.
  rewrite b_push_from_ok by (cbn [b_mem b_off b_len]; lia). cbn [bind b_mem b_off b_len].
  rewrite Lt. change (48 - 16) with 32.
  destruct (put_header_ok s {| b_mem := overwrite m2 32 t; b_off := 32; b_len := b_len b + 16 |} Hs) as [m' [E [L S]]];
    cbn [b_off b_len b_mem] in *; try (len).
  rewrite E. cbn [bind enc_good]. rewrite length_overwrite in L by lia.
  refine (conj _ (conj eq_refl (conj _ _))).
  - cbn [seal]. fold k. fold c. fold t. f_equal.
    unfold b_data at 1. cbn [b_mem b_off b_len]. rewrite S. f_equal.
    rewrite buf_eta_data, (Nat.add_comm (b_len b)), slice_add. f_equal.
    + symmetry. apply slice_overwrite_eq; lia.
    + rewrite slice_overwrite_after by lia. symmetry. exact S2.
  - split; cbn [b_mem b_off b_len]; lia.
  - cbn [b_len provider_overhead]. lia.
Qed.

Lemma cipher_test_encrypt_good cf cy sl s b g :
  computes cy sl -> length (s_send s) = 6 -> enc_ready cf CipherTest b g ->
  enc_good sl CipherTest cy (m_max_buffer cf) s (b_data b) (session_encrypt cf cy CipherTest s b g).
Proof.
  intros [Hcr _] Hs [Hmb [Hg [[Hm Hfit] [Hal [Hhr Hsp]]]]].
  cbn [provider_encrypt_headroom enc_space] in *.
  unfold session_encrypt. rewrite b_zero_pad_ok by lia. cbn [bind method_encrypt].
  unfold cipher_test_encrypt.
  pose proof (zeroed_blocks (b_mem b) (b_off b + b_len b) (b_off b)) as HZ.
  replace (b_off b + b_len b - b_off b) with (b_len b) in HZ by lia.
  specialize (HZ ltac:(lia) ltac:(lia) ltac:(lia) ltac:(lia)).
  remember (overwrite (b_mem b) (b_off b + b_len b)
              (repeat 0%N (alignto (b_off b + b_len b) 16 - (b_off b + b_len b)))) as m0 eqn:Em0.
  pose proof (alignto_16_bounds (b_off b + b_len b)) as [A1 [A2 A3]].
  pose proof (alignto_fits (b_off b + b_len b) (m_max_buffer cf) Hmb Hfit) as A4.
  assert (Lm0 : length m0 = m_max_buffer cf).
  { subst m0. rewrite length_overwrite; rewrite ?repeat_length; lia. }
  change COMMON_HEADROOM with 16.
  cbn [b_mem b_off b_len].
  rewrite b_alloc_ok by lia. cbn [bind b_mem b_off b_len].
  pose proof (alignto_fits (b_len b) (m_max_buffer cf - 16)) as A5.
  pose proof (alignto_16_bounds (b_len b)) as [D1 [D2 D3]].
  assert (A6 : alignto (b_len b) 16 <= m_max_buffer cf - 16) by (apply A5; lia).
  assert (A7 : b_off b + alignto (b_len b) 16 = alignto (b_off b + b_len b) 16).
  { replace (b_off b + b_len b) with (16 * (b_off b / 16) + b_len b) by lia.
    rewrite alignto_add16. lia. }
  rewrite read_blocks_ok by (try lia; rewrite block_count_16; lia). cbn [bind].
  rewrite HZ.
  set (ivl := if Nat.eqb (cy_ivlen cy) 0 then 1 else cy_ivlen cy).
  destruct (cy_crypt cy (expand_nonce (s_send s) ivl) (pad16 (slice (b_mem b) (b_off b) (b_len b)))) as [y|] eqn:Ey;
    [|intros [Ht _]; exact (Ht _ _ Ey)].
  apply Hcr in Ey.
  set (k := sl_ks sl (expand_nonce (s_send s) ivl)) in *.
  change (slice (b_mem b) (b_off b) (b_len b)) with (b_data b) in *.
  assert (Lp : length (b_data b) = b_len b) by (unfold b_data; apply length_slice; lia).
  set (c := xor_ks k 0 (b_data b)).
  assert (Lc : length c = b_len b) by (unfold c; now rewrite length_xor_ks).
  assert (Ey' : exists z, y = c ++ z /\ length z = alignto (b_len b) 16 - b_len b).
  { exists (xor_ks k (0 + b_len b) (repeat 0%N (alignto (b_len b) 16 - b_len b))). split.
    - rewrite Ey, pad16_alignto, xor_ks_app, Lp. reflexivity.
    - now rewrite length_xor_ks, repeat_length. }
  clear Ey. destruct Ey' as [z [Ey Lz]].
  assert (Ly : length y = alignto (b_len b) 16) by (rewrite Ey, app_length; lia).
  rewrite write_blocks_ok by (try reflexivity; lia). cbn [bind].
  assert (S2 : slice (overwrite g 16 y) 16 (b_len b) = c).
  { rewrite slice_overwrite_in0 by lia. rewrite Ey.
    rewrite slice_app_l by lia. rewrite <- Lc. apply slice_all. }
  destruct (put_header_ok s {| b_mem := overwrite g 16 y; b_off := 16; b_len := b_len b |} Hs) as [m' [E [L S]]];
    cbn [b_off b_len b_mem] in *; try (len).
  rewrite E. cbn [bind enc_good]. rewrite length_overwrite in L by lia.
  refine (conj _ (conj eq_refl (conj _ _))).
  - cbn [seal]. fold ivl. fold k. fold c. f_equal.
    unfold b_data at 1. cbn [b_mem b_off b_len]. rewrite S. f_equal.
    rewrite buf_eta_data. symmetry. exact S2.
  - split; cbn [b_mem b_off b_len]; lia.
  - cbn [b_len provider_overhead]. lia.
Qed.

Lemma session_encrypt_good sl cf cy sh s b g :
  computes cy sl -> length (s_send s) = 6 -> enc_ready cf sh b g ->
  enc_good sl sh cy (m_max_buffer cf) s (b_data b) (session_encrypt cf cy sh s b g).
Proof.
  intros H1 H2 H3. destruct sh;
  [ apply generic_mac_encrypt_good | apply composed_mac_encrypt_good
  | apply poly1305_encrypt_good | apply cipher_test_encrypt_good ]; assumption.
Qed.

(** ** Decryption *)
Definition padded (b : buf) : Prop :=
  slice (b_mem b) (b_off b + b_len b) (alignto (b_off b + b_len b) 16 - (b_off b + b_len b))
  = repeat 0%N (alignto (b_off b + b_len b) 16 - (b_off b + b_len b)).

Lemma padded_blocks m e o :
  slice m e (alignto e 16 - e) = repeat 0%N (alignto e 16 - e) ->
  e <= length m -> o <= e -> o mod 16 = 0 ->
  slice m o (16 * block_count (e - o) 16) = pad16 (slice m o (e - o)).
Proof.
  intros Hz He Ho Hal. rewrite block_count_16, pad16_alignto, length_slice by lia.
  pose proof (alignto_16_bounds e) as [B1 [B2 B3]].
  assert (Hk : alignto e 16 = o + alignto (e - o) 16).
  { replace e with (16 * (o / 16) + (e - o)) at 1 by lia. rewrite alignto_add16. lia. }
  pose proof (alignto_16_bounds (e - o)) as [C1 [C2 C3]].
  replace (alignto (e - o) 16) with ((e - o) + (alignto e 16 - e)) at 1 by lia.
  rewrite slice_add. f_equal.
  replace (o + (e - o)) with e by lia.
  replace (alignto (e - o) 16 - (e - o)) with (alignto e 16 - e) by lia.
  exact Hz.
Qed.

Lemma zero_pad_good mb b :
  mb mod 16 = 0 -> buf_wf mb b ->
  exists b', b_zero_pad b = Ok b' /\ b_off b' = b_off b /\ b_len b' = b_len b /\
    b_data b' = b_data b /\ buf_wf mb b' /\ padded b'.
Proof.
  intros Hmb [Hm Hf]. rewrite b_zero_pad_ok by lia.
  pose proof (alignto_16_bounds (b_off b + b_len b)) as [A1 [A2 A3]].
  pose proof (alignto_fits (b_off b + b_len b) mb Hmb Hf) as A4.
  eexists. split; [reflexivity|]. cbn [b_off b_len].
  refine (conj eq_refl (conj eq_refl (conj _ (conj _ _)))).
  - unfold b_data. cbn [b_mem b_off b_len]. apply slice_overwrite_before; lia.
  - split; [|cbn [b_off b_len]; lia]. len.
  - unfold padded. cbn [b_mem b_off b_len]. apply slice_overwrite_eq; rewrite ?repeat_length; lia.
Qed.

Definition dec_good (now : Z) (sl : sealing) (sh : shape) (cy : crypto) (cf : mcfg) (s : session)
    (b : buf) (r : res dec_result) : Prop :=
  match r with
  | Ok (DecNull b') =>
      b_data b' = b_data b /\ b_off b' = b_off b /\ b_len b' = b_len b /\
      buf_wf (m_max_buffer cf) b' /\ padded b' /\
      (total cy sl -> forall nonce p age, ~ authentic sl sh cy now s (b_data b) nonce p age)
  | Ok (DecOut out s' reordered) =>
      buf_wf (m_max_buffer cf) out /\
      b_off out mod 16 = 0 /\ m_encrypt_headroom cf <= b_off out /\
      exists nonce p age,
        authentic sl sh cy now s (b_data b) nonce p age /\
        match reorder_check now s nonce age with
        | RUB => False
        | RDuplicate => s' = s /\ reordered = false /\ b_data out = []
        | RNew s1 => s' = s1 /\ reordered = false /\ b_data out = p
        | RReordered s1 => s' = s1 /\ reordered = true /\ b_data out = p
        end
  | _ => False
  end.

Lemma nonce_valid_no_ub now s nonce age :
  is_nonce_valid now s nonce = Some age -> reorder_check now s nonce age <> RUB.
Proof.
  intros H E.
  assert (Hage : (age <= 64)%Z).
  { unfold is_nonce_valid in H.
    destruct (negb _); [discriminate|].
    destruct (0 <=? Z.shiftr (age_loop 0 (s_recv s) nonce) 1)%Z eqn:E0.
    - destruct (timed_out now (s_reorder_timeout s)); [discriminate|].
      destruct (64 <? Z.shiftr (age_loop 0 (s_recv s) nonce) 1)%Z eqn:E1; [discriminate|].
      injection H as <-. lia.
    - injection H as <-. lia. }
  unfold reorder_check, shl64 in E.
  destruct (age <? 0)%Z eqn:En.
  - destruct (64 <=? Z.to_N (- age))%N eqn:E64.
    + destruct (Z.to_N (- age) <=? 64)%N eqn:E65; [|discriminate].
      destruct (Z.to_N (- age) - 1 <? 64)%N eqn:E66; [discriminate|lia].
    + destruct (Z.to_N (- age) <? 64)%N eqn:E65; [|lia].
      destruct (Z.to_N (- age) <=? 64)%N eqn:E67; [|discriminate].
      destruct (Z.to_N (- age) - 1 <? 64)%N eqn:E66; [discriminate|lia].
  - destruct (age =? 0)%Z eqn:E0; [discriminate|].
    destruct (Z.to_N (age - 1) <? 64)%N eqn:E1; [|lia].
    destruct (negb _); discriminate.
Qed.

Lemma finish_good now sl sh cy cf s b out nonce p age :
  authentic sl sh cy now s (b_data b) nonce p age ->
  buf_wf (m_max_buffer cf) out -> b_off out mod 16 = 0 -> m_encrypt_headroom cf <= b_off out ->
  b_data out = p ->
  dec_good now sl sh cy cf s b (finish_decrypt now s out nonce age).
Proof.
  intros Ha Hw Hal Hh Hd. unfold finish_decrypt.
  assert (Hnv := proj2 (proj2 (proj2 Ha))).
  pose proof (nonce_valid_no_ub _ _ _ _ Hnv) as Hub.
  destruct (reorder_check now s nonce age) as [| |s1|s1] eqn:E; [congruence| | |];
    cbn [dec_good b_off b_mem].
  - refine (conj _ (conj Hal (conj Hh _))).
    + destruct Hw as [W1 W2]. split; cbn [b_mem b_off b_len]; lia.
    + exists nonce, p, age. split; [exact Ha|]. rewrite E. repeat split; reflexivity.
  - refine (conj Hw (conj Hal (conj Hh _))). exists nonce, p, age. split; [exact Ha|].
    rewrite E. auto.
  - refine (conj Hw (conj Hal (conj Hh _))). exists nonce, p, age. split; [exact Ha|].
    rewrite E. auto.
Qed.

(** Splitting packets. *)
Lemma nth_slice l o n i : o + n <= length l -> i < n -> nth i (slice l o n) 0%N = nth (o + i) l 0%N.
Proof.
  intros H1 H2. unfold slice.
  assert (E : nth (o + i) l 0%N = nth i (skipn o l) 0%N).
  { rewrite <- (firstn_skipn o l) at 1. rewrite app_nth2; rewrite firstn_length; [|lia].
    f_equal. lia. }
  rewrite E. rewrite <- (firstn_skipn n (skipn o l)) at 2.
  rewrite app_nth1; [reflexivity|]. rewrite firstn_length, skipn_length. lia.
Qed.

Lemma slice_split l a : a <= length l -> l = slice l 0 a ++ slice l a (length l - a).
Proof.
  intro H. rewrite <- (slice_all l) at 1.
  replace (length l) with (a + (length l - a)) at 1 by lia.
  rewrite slice_add. reflexivity.
Qed.

Lemma header_split (pkt : bytes) :
  8 <= length pkt ->
  slice pkt 0 8 = nth 0 pkt 0%N :: nth 1 pkt 0%N :: slice pkt 2 6.
Proof.
  intro H. destruct pkt as [|x [|y pkt]]; cbn [length] in H; try lia. reflexivity.
Qed.

Lemma app_inj_len {A} (a b c d : list A) : length a = length c -> a ++ b = c ++ d -> a = c /\ b = d.
Proof.
  revert c; induction a as [|x a IH]; intros [|y c] H E; cbn in *; try discriminate.
  - split; [reflexivity|exact E].
  - injection E as -> E. apply IH in E; [|lia]. destruct E as [-> ->]. split; reflexivity.
Qed.

Lemma sealed_header (pkt : bytes) (ty : byte) (nonce rest : bytes) :
  length nonce = 6 -> pkt = (ty :: 0%N :: nonce) ++ rest ->
  8 <= length pkt /\ nth 0 pkt 0%N = ty /\ nth 1 pkt 0%N = 0%N /\ slice pkt 2 6 = nonce /\
  slice pkt 8 (length pkt - 8) = rest.
Proof.
  intros Hn E.
  assert (LX : length (ty :: 0%N :: nonce) = 8) by (cbn [length]; lia).
  assert (L : length pkt = 8 + length rest) by (rewrite E, app_length; lia).
  refine (conj _ (conj _ (conj _ (conj _ _)))); [lia|now rewrite E|now rewrite E| |].
  - rewrite E, slice_app_l by exact (Nat.eq_le_incl _ _ (eq_sym LX)). change (slice nonce 0 6 = nonce). rewrite <- Hn. apply slice_all.
  - rewrite L, E, slice_app_r by exact (Nat.eq_le_incl _ _ LX).
    replace (8 + length rest - 8) with (length rest) by lia.
    etransitivity; [|apply slice_all]. f_equal. exact (f_equal (Nat.sub 8) LX).
Qed.

Lemma sealed_body (pkt rest tag c : bytes) :
  slice pkt 8 (length pkt - 8) = rest -> rest = tag ++ c -> length tag = 16 -> 8 <= length pkt ->
  24 <= length pkt /\ slice pkt 8 16 = tag /\ slice pkt 24 (length pkt - 24) = c.
Proof.
  intros H1 -> Ht Hl.
  assert (L : length pkt - 8 = 16 + length c).
  { rewrite <- (length_slice pkt 8 (length pkt - 8)) by lia. rewrite H1, app_length. lia. }
  split; [lia|].
  rewrite L, slice_add in H1. apply app_inj_len in H1; [|rewrite length_slice; lia].
  destruct H1 as [E1 E2]. split; [exact E1|].
  replace (length pkt - 24) with (length c) by lia. exact E2.
Qed.

Lemma seal_inv sl sh ivl mivl compat nonce p pkt :
  (forall m n t, sl_digest sl m n = Some t -> length t = 16) ->
  (forall m k, length (sl_poly sl m k) = 16) ->
  length nonce = 6 -> seal sl sh ivl mivl compat nonce p = Some pkt ->
  8 <= length pkt /\ nth 0 pkt 0%N = packet_type compat /\ nth 1 pkt 0%N = 0%N /\ slice pkt 2 6 = nonce /\
  let c := slice pkt 24 (length pkt - 24) in
  let k := sl_ks sl (expand_nonce nonce ivl) in
  match sh with
  | GenericMac => 24 <= length pkt /\ p = xor_ks k 16 c /\
      exists d, sl_digest sl (pad16 c) (length c) = Some d /\ slice pkt 8 16 = xor_bytes (ks_bytes k 0 16) d
  | ComposedMac => 24 <= length pkt /\ p = xor_ks k 0 c /\
      exists d, sl_digest sl (pad16 c) (length c) = Some d /\
        slice pkt 8 16 = xor_bytes (ks_bytes (sl_mac_ks sl (expand_nonce nonce mivl)) 0 16) d
  | Poly1305 => 24 <= length pkt /\ p = xor_ks k 32 c /\
      slice pkt 8 16 = sl_poly sl c (ks_bytes k 0 32)
  | CipherTest =>
      p = xor_ks (sl_ks sl (expand_nonce nonce (if Nat.eqb ivl 0 then 1 else ivl))) 0
            (slice pkt 8 (length pkt - 8))
  end.
Proof.
  intros Hd Hp Hn H. destruct sh; cbn [seal] in H.
  - destruct (sl_digest sl _ _) as [d|] eqn:Ed; [|discriminate]. injection H as H. symmetry in H.
    destruct (sealed_header _ _ _ _ Hn H) as [L [E0 [E1 [E2 E3]]]].
    assert (Lt : length (xor_bytes (ks_bytes (sl_ks sl (expand_nonce nonce ivl)) 0 16) d) = 16).
    { rewrite length_xor_bytes; rewrite length_ks_bytes; [reflexivity|]. symmetry. eapply Hd; exact Ed. }
    destruct (sealed_body _ _ _ _ E3 eq_refl Lt L) as [L2 [E4 E5]].
    refine (conj L (conj E0 (conj E1 (conj E2 _)))). cbv zeta.
    refine (conj L2 (conj _ _)).
    + rewrite E5. now rewrite xor_ks_twice.
    + exists d. rewrite E5, E4. split; [exact Ed|reflexivity].
  - destruct (sl_digest sl _ _) as [d|] eqn:Ed; [|discriminate]. injection H as H. symmetry in H.
    destruct (sealed_header _ _ _ _ Hn H) as [L [E0 [E1 [E2 E3]]]].
    assert (Lt : length (xor_bytes (ks_bytes (sl_mac_ks sl (expand_nonce nonce mivl)) 0 16) d) = 16).
    { rewrite length_xor_bytes; rewrite length_ks_bytes; [reflexivity|]. symmetry. eapply Hd; exact Ed. }
    destruct (sealed_body _ _ _ _ E3 eq_refl Lt L) as [L2 [E4 E5]].
    refine (conj L (conj E0 (conj E1 (conj E2 _)))). cbv zeta.
    refine (conj L2 (conj _ _)).
    + rewrite E5. now rewrite xor_ks_twice.
    + exists d. rewrite E5, E4. split; [exact Ed|reflexivity].
  - injection H as H. symmetry in H.
    destruct (sealed_header _ _ _ _ Hn H) as [L [E0 [E1 [E2 E3]]]].
    destruct (sealed_body _ _ _ _ E3 eq_refl (Hp _ _) L) as [L2 [E4 E5]].
    refine (conj L (conj E0 (conj E1 (conj E2 _)))). cbv zeta.
    refine (conj L2 (conj _ _)).
    + rewrite E5. now rewrite xor_ks_twice.
    + rewrite E5, E4. reflexivity.
  - injection H as H. symmetry in H.
    destruct (sealed_header _ _ _ _ Hn H) as [L [E0 [E1 [E2 E3]]]].
    refine (conj L (conj E0 (conj E1 (conj E2 _)))). cbv zeta.
    rewrite E3. now rewrite xor_ks_twice.
Qed.

Lemma handle_header_ok now s b mb :
  buf_wf mb b -> 8 <= b_len b ->
  handle_header now s b =
    Ok (if N.eqb (nth 0 (b_data b) 0%N) (packet_type (s_compat s)) then
          match is_nonce_valid now s (slice (b_data b) 2 6) with
          | Some age => Some (slice (b_data b) 2 6, nth 1 (b_data b) 0%N, age)
          | None => None
          end
        else None).
Proof.
  intros [W1 W2] Hl. unfold handle_header, COMMON_HEADBYTES.
  rewrite read_ok by lia. cbn [bind].
  assert (E : slice (b_mem b) (b_off b) 8 = slice (b_data b) 0 8).
  { unfold b_data. rewrite slice_slice by lia. now rewrite Nat.add_0_r. }
  rewrite E. rewrite header_split.
  2:{ unfold b_data. rewrite length_slice; lia. }
  cbn [nth skipn]. destruct (N.eqb _ _); [|reflexivity].
  destruct (is_nonce_valid _ _ _); reflexivity.
Qed.

(** A rejected packet whose buffer was not touched. *)
Lemma null_good now sl sh cy cf s b :
  buf_wf (m_max_buffer cf) b -> padded b ->
  (total cy sl -> forall nonce p age, ~ authentic sl sh cy now s (b_data b) nonce p age) ->
  dec_good now sl sh cy cf s b (Ok (DecNull b)).
Proof. intros W P H. cbn [dec_good]. auto 10. Qed.

Lemma bytes_eqb_eq a b : bytes_eqb a b = true <-> a = b.
Proof. unfold bytes_eqb. destruct (list_eq_dec N.eq_dec a b); split; congruence. Qed.

Lemma tag_iff k d t : length d = 16 -> length t = 16 ->
  (t = xor_bytes (ks_bytes k 0 16) d <-> d = xor_ks k 0 t).
Proof.
  intros Hd Ht. rewrite xor_ks_as_xor_bytes, Ht, (xor_bytes_comm t). split; intros ->.
  - rewrite xor_bytes_cancel; [reflexivity|]. rewrite length_ks_bytes. lia.
  - rewrite xor_bytes_cancel; [reflexivity|]. rewrite length_ks_bytes. lia.
Qed.

Ltac reject := apply null_good; [assumption|assumption|].

Lemma generic_mac_decrypt_good now cf cy sl s b g :
  computes cy sl -> dec_ready cf GenericMac b g -> padded b ->
  dec_good now sl GenericMac cy cf s b (generic_mac_decrypt now cf cy s b g).
Proof.
  intros Hc [Hmb [Hg [W [Hal [Heh [Hehp Hsp]]]]]] Hpad.
  pose proof Hc as [Hcr [_ [Hdg [Hdl [_ Hpl]]]]].
  cbn [provider_encrypt_headroom enc_space provider_overhead] in *.
  assert (Hss : ssub (m_encrypt_headroom cf) 16 + 16 = m_encrypt_headroom cf).
  { unfold ssub. destruct (Nat.ltb_spec 16 (m_encrypt_headroom cf)); lia. }
  pose proof W as [W1 W2].
  assert (Lp : length (b_data b) = b_len b) by (unfold b_data; apply length_slice; lia).
  unfold generic_mac_decrypt. change (COMMON_HEADBYTES + 16) with 24.
  destruct (Nat.ltb_spec (b_len b) 24) as [Hsh|Hlen].
  { reject. intros _ nonce p age [_ [Hn [Hs _]]].
    apply seal_inv in Hs; try assumption. cbv zeta in Hs. lia. }
  destruct (common_is_valid now s) eqn:Hv; cbn [negb].
  2:{ reject. intros _ nonce p age [Hv' _]. congruence. }
  rewrite (handle_header_ok now s b (m_max_buffer cf)) by (assumption || lia). cbn [bind].
  destruct (N.eqb_spec (nth 0 (b_data b) 0%N) (packet_type (s_compat s))) as [Hty|Hty].
  2:{ reject. intros _ nonce p age [_ [Hn [Hs _]]].
      apply seal_inv in Hs; try assumption. cbv zeta in Hs. tauto. }
  destruct (is_nonce_valid now s (slice (b_data b) 2 6)) as [age|] eqn:Hnv.
  2:{ reject. intros _ nonce p age [_ [Hn [Hs Hnv']]].
      apply seal_inv in Hs; try assumption. destruct Hs as [_ [_ [_ [E _]]]]. rewrite E in Hnv. congruence. }
  destruct (N.eqb_spec (nth 1 (b_data b) 0%N) 0%N) as [Hfl|Hfl]; cbn [negb].
  2:{ reject. intros _ nonce p age' [_ [Hn [Hs _]]].
      apply seal_inv in Hs; try assumption. cbv zeta in Hs. tauto. }
  change COMMON_HEADBYTES with 8.
  rewrite b_alloc_ok by lia. cbn [bind b_mem b_off b_len].
  remember (slice (b_data b) 2 6) as nonce eqn:En.
  assert (Ln : length nonce = 6) by (subst nonce; rewrite length_slice; lia).
  remember (slice (b_data b) 8 16) as T eqn:ET.
  remember (slice (b_data b) 24 (b_len b - 24)) as C eqn:EC.
  assert (LT : length T = 16) by (subst T; rewrite length_slice; lia).
  assert (LC : length C = b_len b - 24) by (subst C; rewrite length_slice; lia).
  remember (b_off b + b_len b) as e eqn:Ee.
  assert (Hblk : slice (b_mem b) (b_off b + 8) (16 * block_count (b_len b - 8) 16) = T ++ pad16 C).
  { replace (b_len b - 8) with (e - (b_off b + 8)) by lia.
    rewrite padded_blocks by (try lia; unfold padded in Hpad; rewrite <- Ee in Hpad; exact Hpad).
    replace (e - (b_off b + 8)) with (16 + (b_len b - 24)) by lia. rewrite slice_add.
    rewrite pad16_app by (rewrite length_slice; lia).
    subst T C. unfold b_data. rewrite !slice_slice by lia.
    do 3 f_equal. lia. }
  assert (Hmac : slice (b_mem b) (b_off b + 8 + 16) (16 * block_count (b_len b - 8 - 16) 16) = pad16 C).
  { replace (b_len b - 8 - 16) with (e - (b_off b + 8 + 16)) by lia.
    rewrite padded_blocks by (try lia; unfold padded in Hpad; rewrite <- Ee in Hpad; exact Hpad).
    subst C. unfold b_data. rewrite slice_slice by lia. do 2 f_equal; lia. }
  assert (Hal2 : 16 * block_count (b_len b - 8) 16 = 16 + alignto (b_len b - 24) 16).
  { rewrite block_count_16. replace (b_len b - 8) with (16 * 1 + (b_len b - 24)) by lia.
    rewrite alignto_add16. lia. }
  assert (Hal3 : 16 * block_count (b_len b - 8 - 16) 16 = alignto (b_len b - 24) 16).
  { rewrite block_count_16. f_equal. lia. }
  assert (Hin : b_off b + 24 + alignto (b_len b - 24) 16 <= m_max_buffer cf).
  { pose proof (alignto_fits (b_len b - 24) (m_max_buffer cf - (b_off b + 24))). lia. }
  assert (Hout : ssub (m_encrypt_headroom cf) 16 + 16 + alignto (b_len b - 24) 16 <= m_max_buffer cf).
  { pose proof (alignto_fits (b_len b - 24) (m_max_buffer cf - m_encrypt_headroom cf)). lia. }
  rewrite read_blocks_ok by lia. cbn [bind]. rewrite Hblk.
  remember (ssub (m_encrypt_headroom cf) 16) as ho eqn:Eho.
  destruct (cy_crypt cy (expand_nonce nonce (cy_ivlen cy)) (T ++ pad16 C)) as [y|] eqn:Ey.
  2:{ reject. intros [Ht _]. exfalso. exact (Ht _ _ Ey). }
  apply Hcr in Ey. remember (sl_ks sl (expand_nonce nonce (cy_ivlen cy))) as k eqn:Ek.
  rewrite xor_ks_app, LT, pad16_alignto, xor_ks_app in Ey.
  remember (xor_ks k (0 + 16 + length C) (repeat 0%N (alignto (length C) 16 - length C))) as z eqn:Ez.
  assert (Lz : length z = alignto (b_len b - 24) 16 - (b_len b - 24)).
  { subst z. rewrite length_xor_ks, repeat_length, LC. reflexivity. }
  pose proof (alignto_16_bounds (b_len b - 24)) as [D1 [D2 D3]].
  assert (Ly : length y = 16 + alignto (b_len b - 24) 16).
  { rewrite Ey, !app_length, !length_xor_ks. lia. }
  rewrite write_blocks_ok by lia. cbn [bind b_mem b_off b_len].
  rewrite read_blocks_ok by lia. cbn [bind]. rewrite Hmac.
  replace (b_len b - 8 - 16) with (length C) by lia.
  destruct (cy_digest cy (pad16 C) (length C)) as [d|] eqn:Ed.
  2:{ reject. intros [_ [_ [Ht _]]] nonce' p age' [_ [Hn [Hs _]]].
      apply seal_inv in Hs; try assumption. cbv zeta in Hs. rewrite Lp, <- EC in Hs.
      destruct Hs as [_ [_ [_ [_ [_ [_ [d [Hd _]]]]]]]]. rewrite <- Ht in Hd. congruence. }
  apply Hdg in Ed. assert (Ld : length d = 16) by (eapply Hdl; exact Ed).
  rewrite read_blocks_ok by len. cbn [bind].
  assert (S0 : slice (overwrite g ho y) ho (16 * 1) = xor_ks k 0 T).
  { rewrite slice_overwrite_in0 by lia. rewrite Ey. rewrite slice_app_l by (rewrite length_xor_ks; lia).
    change (16 * 1) with 16. rewrite <- LT at 1. rewrite <- (length_xor_ks k 0 T). apply slice_all. }
  rewrite S0.
  destruct (bytes_eqb d (xor_ks k 0 T)) eqn:Eq; cbn [negb].
  - apply bytes_eqb_eq in Eq. rewrite b_pull_ok by (cbn [b_len]; lia). cbn [bind b_mem b_off b_len].
    apply finish_good with (p := xor_ks k 16 C).
    + refine (conj Hv (conj Ln (conj _ Hnv))). cbn [seal]. rewrite <- Ek, xor_ks_twice, Ed.
      rewrite <- (proj2 (tag_iff k d T Ld LT) Eq).
      f_equal. symmetry. rewrite (slice_split (b_data b) 8) by lia.
      rewrite header_split by lia. rewrite Hty, Hfl, <- En. f_equal.
      replace (length (b_data b) - 8) with (16 + (b_len b - 24)) by lia. rewrite slice_add.
      change (8 + 16) with 24. now rewrite <- ET, <- EC.
    + split; cbn [b_mem b_off b_len]; [len|lia].
    + cbn [b_off]. lia.
    + cbn [b_off]. lia.
    + rewrite buf_eta_data. rewrite slice_overwrite_in by lia. rewrite Ey.
      rewrite slice_app_r by (rewrite length_xor_ks; lia). rewrite length_xor_ks, LT.
      rewrite slice_app_l by (rewrite length_xor_ks; lia).
      change (0 + 16) with 16. change (16 - 16) with 0.
      replace (b_len b - 8 - 16) with (length (xor_ks k 16 C)) by (rewrite length_xor_ks; lia).
      apply slice_all.
  - reject. intros _ nonce' p age' [_ [Hn [Hs _]]].
    apply seal_inv in Hs; try assumption. cbv zeta in Hs. rewrite Lp, <- EC, <- ET in Hs.
    destruct Hs as [_ [_ [_ [En' [_ [_ [d' [Hd HT]]]]]]]].
    rewrite <- En' in HT. rewrite <- En, <- Ek in HT. rewrite Ed in Hd. injection Hd as <-.
    apply (tag_iff k d T Ld LT) in HT. apply bytes_eqb_eq in HT. congruence.
Qed.

Lemma composed_mac_decrypt_good now cf cy sl s b g :
  computes cy sl -> dec_ready cf ComposedMac b g -> padded b ->
  dec_good now sl ComposedMac cy cf s b (composed_mac_decrypt now cf cy s b g).
Proof.
  intros Hc [Hmb [Hg [W [Hal [Heh [Hehp Hsp]]]]]] Hpad.
  pose proof Hc as [Hcr [Hmcr [Hdg [Hdl [_ Hpl]]]]].
  cbn [provider_encrypt_headroom enc_space provider_overhead] in *.
  assert (Hss : ssub (m_encrypt_headroom cf) 16 mod 16 = 0 /\ m_encrypt_headroom cf <= ssub (m_encrypt_headroom cf) 16 + 16).
  { unfold ssub. destruct (Nat.ltb_spec 16 (m_encrypt_headroom cf)); lia. }
  destruct Hss as [Hss1 Hss2].
  pose proof W as [W1 W2].
  assert (Lp : length (b_data b) = b_len b) by (unfold b_data; apply length_slice; lia).
  unfold composed_mac_decrypt. change (COMMON_HEADBYTES + 16) with 24.
  destruct (Nat.ltb_spec (b_len b) 24) as [Hsh|Hlen].
  { reject. intros _ nonce p age [_ [Hn [Hs _]]].
    apply seal_inv in Hs; try assumption. cbv zeta in Hs. lia. }
  destruct (common_is_valid now s) eqn:Hv; cbn [negb].
  2:{ reject. intros _ nonce p age [Hv' _]. congruence. }
  rewrite (handle_header_ok now s b (m_max_buffer cf)) by (assumption || lia). cbn [bind].
  destruct (N.eqb_spec (nth 0 (b_data b) 0%N) (packet_type (s_compat s))) as [Hty|Hty].
  2:{ reject. intros _ nonce p age [_ [Hn [Hs _]]].
      apply seal_inv in Hs; try assumption. cbv zeta in Hs. tauto. }
  destruct (is_nonce_valid now s (slice (b_data b) 2 6)) as [age|] eqn:Hnv.
  2:{ reject. intros _ nonce p age [_ [Hn [Hs Hnv']]].
      apply seal_inv in Hs; try assumption. destruct Hs as [_ [_ [_ [E _]]]]. rewrite E in Hnv. congruence. }
  destruct (N.eqb_spec (nth 1 (b_data b) 0%N) 0%N) as [Hfl|Hfl]; cbn [negb].
  2:{ reject. intros _ nonce p age' [_ [Hn [Hs _]]].
      apply seal_inv in Hs; try assumption. cbv zeta in Hs. tauto. }
  change COMMON_HEADBYTES with 8.
  rewrite b_alloc_ok by lia. cbn [bind b_mem b_off b_len].
  remember (slice (b_data b) 2 6) as nonce eqn:En.
  assert (Ln : length nonce = 6) by (subst nonce; rewrite length_slice; lia).
  remember (slice (b_data b) 8 16) as T eqn:ET.
  remember (slice (b_data b) 24 (b_len b - 24)) as C eqn:EC.
  assert (LT : length T = 16) by (subst T; rewrite length_slice; lia).
  assert (LC : length C = b_len b - 24) by (subst C; rewrite length_slice; lia).
  remember (b_off b + b_len b) as e eqn:Ee.
  assert (Hblk0 : slice (b_mem b) (b_off b + 8) (16 * 1) = T).
  { subst T. unfold b_data. rewrite slice_slice by lia. reflexivity. }
  assert (Hmac : slice (b_mem b) (b_off b + 8 + 16) (16 * block_count (b_len b - 8 - 16) 16) = pad16 C).
  { replace (b_len b - 8 - 16) with (e - (b_off b + 8 + 16)) by lia.
    rewrite padded_blocks by (try lia; unfold padded in Hpad; rewrite <- Ee in Hpad; exact Hpad).
    subst C. unfold b_data. rewrite slice_slice by lia. do 2 f_equal; lia. }
  assert (Hal2 : 16 * (block_count (b_len b - 8) 16 - 1) = 16 * block_count (b_len b - 8 - 16) 16).
  { rewrite Nat.mul_sub_distr_l. rewrite !block_count_16.
    replace (b_len b - 8) with (16 * 1 + (b_len b - 24)) at 1 by lia.
    rewrite alignto_add16. replace (b_len b - 8 - 16) with (b_len b - 24) by lia. lia. }
  assert (Hal3 : 16 * block_count (b_len b - 8 - 16) 16 = alignto (b_len b - 24) 16).
  { rewrite block_count_16. f_equal. lia. }
  assert (Hin : b_off b + 24 + alignto (b_len b - 24) 16 <= m_max_buffer cf).
  { pose proof (alignto_fits (b_len b - 24) (m_max_buffer cf - (b_off b + 24))). lia. }
  remember (ssub (m_encrypt_headroom cf) 16) as ho eqn:Eho.
  assert (Hout : ho + 16 + alignto (b_len b - 24) 16 <= m_max_buffer cf).
  { pose proof (alignto_fits (b_len b - 24) (m_max_buffer cf - (ho + 16))). lia. }
  rewrite read_blocks_ok by lia. cbn [bind]. rewrite Hblk0.
  destruct (cy_mac_crypt cy (expand_nonce nonce (cy_mac_ivlen cy)) T) as [x0|] eqn:Ex0.
  2:{ reject. intros [_ [Ht _]]. exfalso. exact (Ht _ _ Ex0). }
  apply Hmcr in Ex0. remember (sl_mac_ks sl (expand_nonce nonce (cy_mac_ivlen cy))) as mk eqn:Emk.
  assert (Lx0 : length x0 = 16) by (rewrite Ex0, length_xor_ks; lia).
  rewrite write_blocks_ok by lia. cbn [bind].
  rewrite read_blocks_ok by (rewrite ?Hal2; lia). cbn [bind]. rewrite Hal2, Hmac.
  destruct (cy_crypt cy (expand_nonce nonce (cy_ivlen cy)) (pad16 C)) as [y|] eqn:Ey.
  2:{ reject. intros [Ht _]. exfalso. exact (Ht _ _ Ey). }
  apply Hcr in Ey. remember (sl_ks sl (expand_nonce nonce (cy_ivlen cy))) as k eqn:Ek.
  rewrite pad16_alignto, xor_ks_app in Ey.
  remember (xor_ks k (0 + length C) (repeat 0%N (alignto (length C) 16 - length C))) as z eqn:Ez.
  assert (Lz : length z = alignto (b_len b - 24) 16 - (b_len b - 24)).
  { subst z. rewrite length_xor_ks, repeat_length, LC. reflexivity. }
  pose proof (alignto_16_bounds (b_len b - 24)) as [D1 [D2 D3]].
  assert (Ly : length y = alignto (b_len b - 24) 16).
  { rewrite Ey, !app_length, !length_xor_ks. lia. }
  rewrite write_blocks_ok by (try lia; len). cbn [bind b_mem b_off b_len].
  rewrite read_blocks_ok by lia. cbn [bind]. rewrite Hmac.
  replace (b_len b - 8 - 16) with (length C) by lia.
  destruct (cy_digest cy (pad16 C) (length C)) as [d|] eqn:Ed.
  2:{ reject. intros [_ [_ [Ht _]]] nonce' p age' [_ [Hn [Hs _]]].
      apply seal_inv in Hs; try assumption. cbv zeta in Hs. rewrite Lp, <- EC in Hs.
      destruct Hs as [_ [_ [_ [_ [_ [_ [d [Hd _]]]]]]]]. rewrite <- Ht in Hd. congruence. }
  apply Hdg in Ed. assert (Ld : length d = 16) by (eapply Hdl; exact Ed).
  rewrite read_blocks_ok by len. cbn [bind].
  assert (S0 : slice (overwrite (overwrite g ho x0) (ho + 16) y) ho (16 * 1) = xor_ks mk 0 T).
  { rewrite slice_overwrite_before by len. rewrite <- Ex0. apply slice_overwrite_eq; lia. }
  rewrite S0.
  destruct (bytes_eqb d (xor_ks mk 0 T)) eqn:Eq; cbn [negb].
  - apply bytes_eqb_eq in Eq. rewrite b_pull_ok by (cbn [b_len]; lia). cbn [bind b_mem b_off b_len].
    apply finish_good with (p := xor_ks k 0 C).
    + refine (conj Hv (conj Ln (conj _ Hnv))). cbn [seal]. rewrite <- Ek, <- Emk, xor_ks_twice, Ed.
      rewrite <- (proj2 (tag_iff mk d T Ld LT) Eq).
      f_equal. symmetry. rewrite (slice_split (b_data b) 8) by lia.
      rewrite header_split by lia. rewrite Hty, Hfl, <- En. f_equal.
      replace (length (b_data b) - 8) with (16 + (b_len b - 24)) by lia. rewrite slice_add.
      change (8 + 16) with 24. now rewrite <- ET, <- EC.
    + split; cbn [b_mem b_off b_len]; [len|lia].
    + cbn [b_off]. lia.
    + cbn [b_off]. lia.
    + rewrite buf_eta_data. rewrite slice_overwrite_in0 by len. rewrite Ey.
      rewrite slice_app_l by (rewrite length_xor_ks; lia).
      replace (b_len b - 8 - 16) with (length (xor_ks k 0 C)) by (rewrite length_xor_ks; lia).
      apply slice_all.
  - reject. intros _ nonce' p age' [_ [Hn [Hs _]]].
    apply seal_inv in Hs; try assumption. cbv zeta in Hs. rewrite Lp, <- EC, <- ET in Hs.
    destruct Hs as [_ [_ [_ [En' [_ [_ [d' [Hd HT]]]]]]]].
    rewrite <- En' in HT. rewrite <- En, <- Emk in HT. rewrite Ed in Hd. injection Hd as <-.
    apply (tag_iff mk d T Ld LT) in HT. apply bytes_eqb_eq in HT. congruence.
Qed.

Lemma cipher_test_decrypt_good now cf cy sl s b g :
  computes cy sl -> dec_ready cf CipherTest b g -> padded b ->
  dec_good now sl CipherTest cy cf s b (cipher_test_decrypt now cf cy s b g).
Proof.
  intros Hc [Hmb [Hg [W [Hal [Heh [Hehp Hsp]]]]]] Hpad.
  pose proof Hc as [Hcr [Hmcr [Hdg [Hdl [_ Hpl]]]]].
  cbn [provider_encrypt_headroom enc_space provider_overhead] in *.
  assert (Hss : ssub (m_encrypt_headroom cf) 0 = m_encrypt_headroom cf).
  { unfold ssub. destruct (Nat.ltb_spec 0 (m_encrypt_headroom cf)); lia. }
  pose proof W as [W1 W2].
  assert (Lp : length (b_data b) = b_len b) by (unfold b_data; apply length_slice; lia).
  unfold cipher_test_decrypt. change COMMON_HEADBYTES with 8.
  destruct (Nat.ltb_spec (b_len b) 8) as [Hsh|Hlen].
  { reject. intros _ nonce p age [_ [Hn [Hs _]]].
    apply seal_inv in Hs; try assumption. cbv zeta in Hs. lia. }
  destruct (common_is_valid now s) eqn:Hv; cbn [negb].
  2:{ reject. intros _ nonce p age [Hv' _]. congruence. }
  rewrite (handle_header_ok now s b (m_max_buffer cf)) by (assumption || lia). cbn [bind].
  destruct (N.eqb_spec (nth 0 (b_data b) 0%N) (packet_type (s_compat s))) as [Hty|Hty].
  2:{ reject. intros _ nonce p age [_ [Hn [Hs _]]].
      apply seal_inv in Hs; try assumption. cbv zeta in Hs. tauto. }
  destruct (is_nonce_valid now s (slice (b_data b) 2 6)) as [age|] eqn:Hnv.
  2:{ reject. intros _ nonce p age [_ [Hn [Hs Hnv']]].
      apply seal_inv in Hs; try assumption. destruct Hs as [_ [_ [_ [E _]]]]. rewrite E in Hnv. congruence. }
  destruct (N.eqb_spec (nth 1 (b_data b) 0%N) 0%N) as [Hfl|Hfl]; cbn [negb].
  2:{ reject. intros _ nonce p age' [_ [Hn [Hs _]]].
      apply seal_inv in Hs; try assumption. cbv zeta in Hs. tauto. }
  rewrite b_alloc_ok by lia. cbn [bind b_mem b_off b_len].
  remember (slice (b_data b) 2 6) as nonce eqn:En.
  assert (Ln : length nonce = 6) by (subst nonce; rewrite length_slice; lia).
  remember (slice (b_data b) 8 (b_len b - 8)) as C eqn:EC.
  assert (LC : length C = b_len b - 8) by (subst C; rewrite length_slice; lia).
  remember (b_off b + b_len b) as e eqn:Ee.
  assert (Hblk : slice (b_mem b) (b_off b + 8) (16 * block_count (b_len b - 8) 16) = pad16 C).
  { replace (b_len b - 8) with (e - (b_off b + 8)) by lia.
    rewrite padded_blocks by (try lia; unfold padded in Hpad; rewrite <- Ee in Hpad; exact Hpad).
    subst C. unfold b_data. rewrite slice_slice by lia. do 2 f_equal; lia. }
  assert (Hal3 : 16 * block_count (b_len b - 8) 16 = alignto (b_len b - 8) 16) by apply block_count_16.
  assert (Hin : b_off b + 8 + alignto (b_len b - 8) 16 <= m_max_buffer cf).
  { pose proof (alignto_fits (b_len b - 8) (m_max_buffer cf - (b_off b + 8))). lia. }
  remember (m_encrypt_headroom cf) as ho eqn:Eho.
  assert (Hout : ho + alignto (b_len b - 8) 16 <= m_max_buffer cf).
  { pose proof (alignto_fits (b_len b - 8) (m_max_buffer cf - ho)). lia. }
  rewrite read_blocks_ok by lia. cbn [bind]. rewrite Hblk.
  remember (if Nat.eqb (cy_ivlen cy) 0 then 1 else cy_ivlen cy) as ivl eqn:Eivl.
  destruct (cy_crypt cy (expand_nonce nonce ivl) (pad16 C)) as [y|] eqn:Ey.
  2:{ reject. intros [Ht _]. exfalso. exact (Ht _ _ Ey). }
  apply Hcr in Ey. remember (sl_ks sl (expand_nonce nonce ivl)) as k eqn:Ek.
  rewrite pad16_alignto, xor_ks_app in Ey.
  remember (xor_ks k (0 + length C) (repeat 0%N (alignto (length C) 16 - length C))) as z eqn:Ez.
  assert (Lz : length z = alignto (b_len b - 8) 16 - (b_len b - 8)).
  { subst z. rewrite length_xor_ks, repeat_length, LC. reflexivity. }
  pose proof (alignto_16_bounds (b_len b - 8)) as [D1 [D2 D3]].
  assert (Ly : length y = alignto (b_len b - 8) 16).
  { rewrite Ey, !app_length, !length_xor_ks. lia. }
  rewrite write_blocks_ok by lia. cbn [bind b_mem b_off b_len].
  apply finish_good with (p := xor_ks k 0 C).
  + refine (conj Hv (conj Ln (conj _ Hnv))). cbn [seal]. rewrite <- Eivl, <- Ek, xor_ks_twice.
    f_equal. symmetry. rewrite (slice_split (b_data b) 8) by lia.
    rewrite header_split by lia. rewrite Hty, Hfl, <- En. f_equal.
    now rewrite Lp, <- EC.
  + split; cbn [b_mem b_off b_len]; [len|lia].
  + cbn [b_off]. lia.
  + cbn [b_off]. lia.
  + rewrite buf_eta_data. rewrite slice_overwrite_in0 by lia. rewrite Ey.
    rewrite slice_app_l by (rewrite length_xor_ks; lia).
    replace (b_len b - 8) with (length (xor_ks k 0 C)) by (rewrite length_xor_ks; lia).
    apply slice_all.
Qed.

(** Restoring the input buffer of generic-poly1305: memory equal to the packet
    again. *)
Lemma poly1305_restore_ok s m off n tag nonce mb :
  length tag = 16 -> length nonce = 6 -> length m = mb -> off + 24 + n <= mb ->
  exists b', poly1305_restore s {| b_mem := m; b_off := off + 24; b_len := n |} tag nonce = Ok (DecNull b') /\
    b_off b' = off /\ b_len b' = n + 24 /\ length (b_mem b') = mb /\
    b_data b' = (packet_type (s_compat s) :: 0%N :: nonce) ++ tag ++ slice m (off + 24) n /\
    (forall o j, off + 24 <= o -> slice (b_mem b') o j = slice m o j).
Proof.
  intros Ht Hn Hm Hf. unfold poly1305_restore.
  rewrite b_push_from_ok by len. cbn [bind b_mem b_off b_len]. rewrite Ht.
  rewrite b_push_from_ok by len. cbn [bind b_mem b_off b_len]. rewrite Hn.
  rewrite b_push_from_ok by len. cbn [bind b_mem b_off b_len length].
  rewrite b_push_from_ok by len. cbn [bind b_mem b_off b_len length].
  replace (off + 24 - 16) with (off + 8) by lia.
  replace (off + 8 - 6) with (off + 2) by lia.
  replace (off + 2 - 1) with (off + 1) by lia.
  replace (off + 1 - 1) with off by lia.
  replace (n + 16 + 6 + 1 + 1) with (n + 24) by lia.
  eexists. split; [reflexivity|]. cbn [b_off b_len b_mem].
  remember (overwrite m (off + 8) tag) as m1 eqn:M1.
  assert (L1 : length m1 = mb) by (subst m1; len).
  remember (overwrite m1 (off + 2) nonce) as m2 eqn:M2.
  assert (L2 : length m2 = mb) by (subst m2; len).
  remember (overwrite m2 (off + 1) [0%N]) as m3 eqn:M3.
  assert (L3 : length m3 = mb) by (rewrite M3; len).
  refine (conj eq_refl (conj eq_refl (conj _ (conj _ _)))).
  - len.
  - unfold b_data. cbn [b_mem b_off b_len].
    replace (n + 24) with (1 + (1 + (6 + (16 + n)))) by lia. rewrite !slice_add.
    replace (off + 1 + 1) with (off + 2) by lia.
    replace (off + 2 + 6) with (off + 8) by lia.
    replace (off + 8 + 16) with (off + 24) by lia.
    rewrite slice_overwrite_eq by (reflexivity || lia).
    rewrite !(slice_overwrite_after m3) by (cbn [length]; lia).
    rewrite M3. rewrite (slice_overwrite_eq m2 (off + 1) [0%N] 1) by (reflexivity || lia).
    rewrite !(slice_overwrite_after m2) by (cbn [length]; lia).
    rewrite M2. rewrite (slice_overwrite_eq m1 (off + 2) nonce 6) by lia.
    rewrite !(slice_overwrite_after m1) by lia.
    rewrite M1. rewrite (slice_overwrite_eq m (off + 8) tag 16) by lia.
    rewrite (slice_overwrite_after m) by lia. reflexivity.
  - intros o j Ho.
    rewrite slice_overwrite_after by (cbn [length]; lia).
    rewrite M3, slice_overwrite_after by (cbn [length]; lia).
    rewrite M2, slice_overwrite_after by lia.
    rewrite M1, slice_overwrite_after by lia. reflexivity.
Qed.

Lemma poly1305_decrypt_good now cf cy sl s b g :
  computes cy sl -> dec_ready cf Poly1305 b g -> padded b ->
  dec_good now sl Poly1305 cy cf s b (poly1305_decrypt now cf cy s b g).
Proof.
  intros Hc [Hmb [Hg [W [Hal [Heh [Hehp Hsp]]]]]] Hpad.
  pose proof Hc as [Hcr [Hmcr [Hdg [Hdl [Hpo Hpl]]]]].
  cbn [provider_encrypt_headroom enc_space provider_overhead] in *.
  assert (Hss : ssub (m_encrypt_headroom cf) 32 + 32 = m_encrypt_headroom cf).
  { unfold ssub. destruct (Nat.ltb_spec 32 (m_encrypt_headroom cf)); lia. }
  pose proof W as [W1 W2].
  assert (Lp : length (b_data b) = b_len b) by (unfold b_data; apply length_slice; lia).
  unfold poly1305_decrypt. change (COMMON_HEADBYTES + 16) with 24.
  destruct (Nat.ltb_spec (b_len b) 24) as [Hsh|Hlen].
  { reject. intros _ nonce p age [_ [Hn [Hs _]]].
    apply seal_inv in Hs; try assumption. cbv zeta in Hs. lia. }
  destruct (common_is_valid now s) eqn:Hv; cbn [negb].
  2:{ reject. intros _ nonce p age [Hv' _]. congruence. }
  rewrite (handle_header_ok now s b (m_max_buffer cf)) by (assumption || lia). cbn [bind].
  destruct (N.eqb_spec (nth 0 (b_data b) 0%N) (packet_type (s_compat s))) as [Hty|Hty].
  2:{ reject. intros _ nonce p age [_ [Hn [Hs _]]].
      apply seal_inv in Hs; try assumption. cbv zeta in Hs. tauto. }
  destruct (is_nonce_valid now s (slice (b_data b) 2 6)) as [age|] eqn:Hnv.
  2:{ reject. intros _ nonce p age [_ [Hn [Hs Hnv']]].
      apply seal_inv in Hs; try assumption. destruct Hs as [_ [_ [_ [E _]]]]. rewrite E in Hnv. congruence. }
  destruct (N.eqb_spec (nth 1 (b_data b) 0%N) 0%N) as [Hfl|Hfl]; cbn [negb].
  2:{ reject. intros _ nonce p age' [_ [Hn [Hs _]]].
      apply seal_inv in Hs; try assumption. cbv zeta in Hs. tauto. }
  change COMMON_HEADBYTES with 8.
  remember (slice (b_data b) 2 6) as nonce eqn:En.
  assert (Ln : length nonce = 6) by (subst nonce; rewrite length_slice; lia).
  remember (slice (b_data b) 8 16) as T eqn:ET.
  remember (slice (b_data b) 24 (b_len b - 24)) as C eqn:EC.
  assert (LT : length T = 16) by (subst T; rewrite length_slice; lia).
  assert (LC : length C = b_len b - 24) by (subst C; rewrite length_slice; lia).
  remember (b_off b + b_len b) as e eqn:Ee.
  rewrite b_pull_ok by lia. cbn [bind b_mem b_off b_len].
  rewrite read_ok by lia. cbn [bind].
  assert (HT : slice (b_mem b) (b_off b + 8) 16 = T).
  { subst T. unfold b_data. rewrite slice_slice by lia. reflexivity. }
  assert (HC : slice (b_mem b) (b_off b + 24) (b_len b - 24) = C).
  { subst C. unfold b_data. rewrite slice_slice by lia. reflexivity. }
  rewrite HT.
  rewrite b_pull_ok by (cbn [b_len]; lia). cbn [bind b_mem b_off b_len].
  unfold b_push_zero. rewrite b_push_from_ok by len. cbn [bind b_mem b_off b_len].
  rewrite repeat_length.
  replace (b_off b + 8 + 16 - 32) with (b_off b - 8) by lia.
  replace (b_len b - 8 - 16 + 32) with (b_len b + 8) by lia.
  rewrite b_alloc_ok by lia. cbn [bind b_mem b_off b_len].
  remember (overwrite (b_mem b) (b_off b - 8) (repeat 0%N 32)) as m1 eqn:M1.
  assert (Lm1 : length m1 = m_max_buffer cf).
  { subst m1. rewrite length_overwrite; rewrite ?repeat_length; lia. }
  assert (Hkeep : forall o n, b_off b + 24 <= o -> slice m1 o n = slice (b_mem b) o n).
  { intros o n Ho. rewrite M1. apply slice_overwrite_after; rewrite ?repeat_length; lia. }
  assert (Hal2 : 16 * block_count (b_len b + 8) 16 = 32 + alignto (b_len b - 24) 16).
  { rewrite block_count_16. replace (b_len b + 8) with (16 * 2 + (b_len b - 24)) by lia.
    rewrite alignto_add16. lia. }
  assert (Hal3 : 16 * block_count (e - (b_off b + 24)) 16 = alignto (b_len b - 24) 16).
  { rewrite block_count_16. f_equal. lia. }
  assert (Hblk : slice m1 (b_off b - 8) (16 * block_count (b_len b + 8) 16) = repeat 0%N 32 ++ pad16 C).
  { rewrite Hal2, slice_add. f_equal.
    - rewrite M1. apply slice_overwrite_eq; [reflexivity|lia].
    - replace (b_off b - 8 + 32) with (b_off b + 24) by lia. rewrite Hkeep by lia.
      rewrite <- Hal3.
      rewrite padded_blocks by (try lia; unfold padded in Hpad; rewrite <- Ee in Hpad; exact Hpad).
      replace (e - (b_off b + 24)) with (b_len b - 24) by lia. now rewrite HC. }
  assert (Hin : b_off b + 24 + alignto (b_len b - 24) 16 <= m_max_buffer cf).
  { pose proof (alignto_fits (b_len b - 24) (m_max_buffer cf - (b_off b + 24))). lia. }
  remember (ssub (m_encrypt_headroom cf) 32) as ho eqn:Eho.
  assert (Hout : ho + 32 + alignto (b_len b - 24) 16 <= m_max_buffer cf).
  { pose proof (alignto_fits (b_len b - 24) (m_max_buffer cf - (ho + 32))). lia. }
  rewrite read_blocks_ok by lia. cbn [bind]. rewrite Hblk.
  rewrite b_pull_ok by (cbn [b_len]; lia). cbn [bind b_mem b_off b_len].
  replace (b_off b - 8 + 32) with (b_off b + 24) by lia.
  replace (b_len b + 8 - 32) with (b_len b - 24) by lia.
  (* the restore path *)
  assert (Hrestore :
    (total cy sl -> forall nonce' p age', ~ authentic sl Poly1305 cy now s (b_data b) nonce' p age') ->
    dec_good now sl Poly1305 cy cf s b
      (poly1305_restore s {| b_mem := m1; b_off := b_off b + 24; b_len := b_len b - 24 |} T nonce)).
  { intro Hna.
    destruct (poly1305_restore_ok s m1 (b_off b) (b_len b - 24) T nonce (m_max_buffer cf))
      as [b' [E [Eo [El [Em [Ed Ek]]]]]]; try lia.
    rewrite E. cbn [dec_good].
    refine (conj _ (conj Eo (conj _ (conj _ (conj _ Hna))))).
    - rewrite Ed, Hkeep, HC by lia.
      symmetry. rewrite (slice_split (b_data b) 8) by lia.
      rewrite header_split by lia. rewrite Hty, Hfl, <- En. f_equal.
      replace (length (b_data b) - 8) with (16 + (b_len b - 24)) by lia. rewrite slice_add.
      change (8 + 16) with 24. now rewrite <- ET, <- EC.
    - lia.
    - split; lia.
    - unfold padded. rewrite Eo, El. replace (b_off b + (b_len b - 24 + 24)) with e by lia.
      rewrite Ek by lia. rewrite Hkeep by lia. unfold padded in Hpad. rewrite <- Ee in Hpad. exact Hpad. }
  destruct (cy_crypt cy (expand_nonce nonce (cy_ivlen cy)) (repeat 0%N 32 ++ pad16 C)) as [y|] eqn:Ey.
  2:{ apply Hrestore. intros [Ht _]. exfalso. exact (Ht _ _ Ey). }
  apply Hcr in Ey. remember (sl_ks sl (expand_nonce nonce (cy_ivlen cy))) as k eqn:Ek.
  rewrite xor_ks_app, repeat_length, xor_ks_zeros, pad16_alignto, xor_ks_app in Ey.
  remember (xor_ks k (0 + 32 + length C) (repeat 0%N (alignto (length C) 16 - length C))) as z eqn:Ez.
  assert (Lz : length z = alignto (b_len b - 24) 16 - (b_len b - 24)).
  { subst z. rewrite length_xor_ks, repeat_length, LC. reflexivity. }
  pose proof (alignto_16_bounds (b_len b - 24)) as [D1 [D2 D3]].
  assert (Ly : length y = 32 + alignto (b_len b - 24) 16).
  { rewrite Ey, !app_length, length_ks_bytes, !length_xor_ks. lia. }
  rewrite write_blocks_ok by lia. cbn [bind b_mem b_off b_len].
  rewrite read_ok by lia. cbn [bind]. rewrite Hkeep, HC by lia.
  rewrite read_ok by len. cbn [bind].
  assert (S0 : slice (overwrite g ho y) ho 32 = ks_bytes k 0 32).
  { rewrite slice_overwrite_in0 by lia. rewrite Ey. rewrite slice_app_l by (rewrite length_ks_bytes; lia).
    rewrite <- (length_ks_bytes k 0 32) at 2. apply slice_all. }
  rewrite S0, Hpo.
  destruct (bytes_eqb T (sl_poly sl C (ks_bytes k 0 32))) eqn:Eq; cbn [negb].
  - apply bytes_eqb_eq in Eq. rewrite b_pull_ok by (cbn [b_len]; lia). cbn [bind b_mem b_off b_len].
    apply finish_good with (p := xor_ks k 32 C).
    + refine (conj Hv (conj Ln (conj _ Hnv))). cbn [seal]. rewrite <- Ek, xor_ks_twice, <- Eq.
      f_equal. symmetry. rewrite (slice_split (b_data b) 8) by lia.
      rewrite header_split by lia. rewrite Hty, Hfl, <- En. f_equal.
      replace (length (b_data b) - 8) with (16 + (b_len b - 24)) by lia. rewrite slice_add.
      change (8 + 16) with 24. now rewrite <- ET, <- EC.
    + split; cbn [b_mem b_off b_len]; [len|lia].
    + cbn [b_off]. lia.
    + cbn [b_off]. lia.
    + rewrite buf_eta_data. rewrite slice_overwrite_in by lia. rewrite Ey.
      rewrite slice_app_r by (rewrite length_ks_bytes; lia). rewrite length_ks_bytes.
      rewrite slice_app_l by (rewrite length_xor_ks; lia).
      change (0 + 32) with 32. change (32 - 32) with 0.
      replace (b_len b + 8 - 32) with (length (xor_ks k 32 C)) by (rewrite length_xor_ks; lia).
      apply slice_all.
  - apply Hrestore. intros _ nonce' p age' [_ [Hn [Hs _]]].
    apply seal_inv in Hs; try assumption. cbv zeta in Hs. rewrite Lp, <- EC, <- ET in Hs.
    destruct Hs as [_ [_ [_ [En' [_ [_ HT']]]]]].
    rewrite <- En' in HT'. rewrite <- En, <- Ek in HT'.
    apply bytes_eqb_eq in HT'. congruence.
Qed.

Lemma method_decrypt_good now sl cf cy sh s b g :
  computes cy sl -> dec_ready cf sh b g -> padded b ->
  dec_good now sl sh cy cf s b (method_decrypt sh now cf cy s b g).
Proof.
  intros H1 H2 H3. destruct sh;
  [ apply generic_mac_decrypt_good | apply composed_mac_decrypt_good
  | apply poly1305_decrypt_good | apply cipher_test_decrypt_good ]; assumption.
Qed.

Lemma session_decrypt_good now sl cf cy sh s b g :
  computes cy sl -> dec_ready cf sh b g ->
  dec_good now sl sh cy cf s b (session_decrypt now cf cy sh s b g).
Proof.
  intros H1 H2. unfold session_decrypt.
  destruct H2 as [Hmb [Hg [W [Hal [Heh [Hehp Hsp]]]]]].
  destruct (zero_pad_good (m_max_buffer cf) b Hmb W) as [b' [E [Eo [El [Ed [W' P']]]]]].
  rewrite E. cbn [bind].
  assert (R : dec_ready cf sh b' g).
  { unfold dec_ready. rewrite Eo, El. auto 10. }
  pose proof (method_decrypt_good now sl cf cy sh s b' g H1 R P') as G.
  unfold dec_good in *. destruct (method_decrypt sh now cf cy s b' g) as [[b''|out s' r]| | |]; try exact G;
    rewrite Ed in G; try rewrite Eo, El in G; exact G.
Qed.
