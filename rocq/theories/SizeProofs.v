(** Proofs about buffer sizes. *)
From Verif Require Import Base NonceModel BufferModel BufferProofs MethodModel MethodSpec MethodProofs MethodProofs2 SizeModel.

Transparent alignto block_count.

Lemma fold_max_ge {A} (f : A -> nat) l a :
  a <= fold_left (fun x p => Nat.max x (f p)) l a /\
  forall p, In p l -> f p <= fold_left (fun x p => Nat.max x (f p)) l a.
Proof.
  revert a; induction l as [|q l IH]; intro a; cbn [fold_left].
  - split; [lia|]. intros p [].
  - destruct (IH (Nat.max a (f q))) as [H1 H2]. split; [lia|].
    intros p [->|Hp]; [lia|]. now apply H2.
Qed.

Lemma fold_max_le {A} (f : A -> nat) l a b :
  a <= b -> (forall p, In p l -> f p <= b) -> fold_left (fun x p => Nat.max x (f p)) l a <= b.
Proof.
  revert a; induction l as [|q l IH]; intros a Ha H; cbn [fold_left]; [exact Ha|].
  apply IH; [|intros p Hp; apply H; now right].
  pose proof (H q (or_introl eq_refl)). lia.
Qed.

Lemma max_over_ge f ps p : In p ps -> f p <= max_over f ps.
Proof. intro H. unfold max_over. now apply (fold_max_ge f ps 0). Qed.

Lemma max_over_le f ps b : (forall p, In p ps -> f p <= b) -> max_over f ps <= b.
Proof. intro H. unfold max_over. apply fold_max_le; [lia|exact H]. Qed.

Lemma max_over_attained f ps : max_over f ps = 0 \/ exists p, In p ps /\ f p = max_over f ps.
Proof.
  unfold max_over.
  assert (G : forall l a, fold_left (fun x p => Nat.max x (f p)) l a = a \/
             exists p, In p l /\ f p = fold_left (fun x p => Nat.max x (f p)) l a).
  { intro l. induction l as [|q l IH]; intro a; cbn [fold_left]; [now left|].
    destruct (IH (Nat.max a (f q))) as [E|[p [Hp E]]].
    - rewrite E. destruct (Nat.max_spec a (f q)) as [[H ->]|[H ->]].
      + right. exists q. split; [now left|reflexivity].
      + now left.
    - right. exists p. split; [now right|exact E]. }
  exact (G ps 0).
Qed.

(** All the sizes that can occur. *)
Lemma size_facts ps m mtu pm :
  let z := configure ps m mtu pm in
  z_encrypt_headroom z mod 16 = 0 /\ z_decrypt_headroom z mod 16 = 8 /\
  z_max_buffer z mod 16 = 0 /\
  (forall p, In p ps -> p_encrypt_headroom p <= z_encrypt_headroom z /\ p_overhead p <= z_overhead z /\
                        p_decrypt_headroom p + 8 <= z_decrypt_headroom z) /\
  z_overhead z <= 24 /\ z_encrypt_headroom z <= 32 /\
  (z_decrypt_headroom z = 8 -> z_encrypt_headroom z <= 16) /\
  (z_decrypt_headroom z = 8 \/ z_decrypt_headroom z = 24) /\
  z_encrypt_headroom z + 16 + max_payload m (z_max_mtu z) <= z_max_buffer z /\
  z_decrypt_headroom z + z_overhead z + max_payload m (z_max_mtu z) <= z_max_buffer z /\
  MAX_HANDSHAKE_SIZE <= z_max_buffer z.
Proof.
  cbv zeta. unfold configure.
  cbn [z_overhead z_encrypt_headroom z_decrypt_headroom z_max_mtu z_max_buffer].
  assert (Ho : max_over p_overhead ps <= 24).
  { apply max_over_le. intros [| |[]] _; cbn; lia. }
  assert (He : max_over p_encrypt_headroom ps <= 32).
  { apply max_over_le. intros [| |[]] _; cbn; lia. }
  assert (Hd : max_over p_decrypt_headroom ps <= 16).
  { apply max_over_le. intros [| |[]] _; cbn; lia. }
  assert (Hd2 : max_over p_decrypt_headroom ps = 0 \/ max_over p_decrypt_headroom ps = 16).
  { destruct (max_over_attained p_decrypt_headroom ps) as [E|[p [_ E]]]; [now left|].
    destruct p as [| |[]]; cbn in E; lia. }
  assert (Hed : max_over p_decrypt_headroom ps = 0 -> max_over p_encrypt_headroom ps <= 16).
  { intro E. apply max_over_le. intros p Hp.
    pose proof (max_over_ge p_decrypt_headroom ps p Hp) as G.
    destruct p as [| |[]]; cbn in *; lia. }
  refine (conj _ (conj _ (conj _ (conj _ (conj Ho (conj _ (conj _ (conj _ (conj _ (conj _ _)))))))))).
  - unfold alignto, block_count. lia.
  - unfold alignto, block_count. lia.
  - unfold alignto, block_count. lia.
  - intros p Hp.
    pose proof (max_over_ge p_encrypt_headroom ps p Hp).
    pose proof (max_over_ge p_overhead ps p Hp).
    pose proof (max_over_ge p_decrypt_headroom ps p Hp).
    pose proof (alignto_16_bounds (max_over p_encrypt_headroom ps)).
    pose proof (alignto_16_bounds (max_over p_decrypt_headroom ps)). lia.
  - unfold alignto, block_count. lia.
  - intro E. assert (max_over p_decrypt_headroom ps = 0).
    { revert E. unfold alignto, block_count. lia. }
    unfold alignto, block_count. lia.
  - destruct Hd2 as [-> | ->]; cbn; lia.
  - pose proof (alignto_16_bounds (Nat.max (Nat.max (alignto (max_over p_encrypt_headroom ps) 16 + 16) (alignto (max_over p_decrypt_headroom ps) 16 + 8 + max_over p_overhead ps) + max_payload m (max_mtu m mtu pm)) MAX_HANDSHAKE_SIZE)).
    lia.
  - pose proof (alignto_16_bounds (Nat.max (Nat.max (alignto (max_over p_encrypt_headroom ps) 16 + 16) (alignto (max_over p_decrypt_headroom ps) 16 + 8 + max_over p_overhead ps) + max_payload m (max_mtu m mtu pm)) MAX_HANDSHAKE_SIZE)).
    lia.
  - pose proof (alignto_16_bounds (Nat.max (Nat.max (alignto (max_over p_encrypt_headroom ps) 16 + 16) (alignto (max_over p_decrypt_headroom ps) 16 + 8 + max_over p_overhead ps) + max_payload m (max_mtu m mtu pm)) MAX_HANDSHAKE_SIZE)).
    lia.
Qed.

(** ** Receiving *)
Section Recv.
  Variables (ps : list provider) (m : mode) (mtu : nat) (pm : list nat).
  Let z := configure ps m mtu pm.

  Lemma receive_ok g d :
    length g = z_max_buffer z -> z_decrypt_headroom z + recv_max_len m z <= z_max_buffer z ->
    exists b, receive m z g d = Ok b /\ b_data b = firstn (recv_max_len m z) d /\
      buf_wf (z_max_buffer z) b /\ b_off b = z_decrypt_headroom z /\
      b_len b = length (firstn (recv_max_len m z) d).
  Proof.
    intros Hg Hsz. destruct (size_facts ps m mtu pm) as [F1 [F2 [F3 _]]]. fold z in F1, F2, F3.
    unfold receive. rewrite b_alloc_ok by lia. cbn [bind b_mem b_off b_len].
    pose proof (firstn_le_length (recv_max_len m z) d) as L.
    rewrite write_ok by lia. cbn [bind]. eexists. split; [reflexivity|].
    unfold b_data. cbn [b_mem b_off b_len].
    refine (conj _ (conj _ (conj eq_refl eq_refl))).
    - apply slice_overwrite_same. lia.
    - split; cbn [b_mem b_off b_len]; [rewrite length_overwrite; lia|lia].
  Qed.

  (** receiving stops the daemon exactly when a handshake-sized buffer does not
      fit behind the decrypt headroom *)
  Lemma receive_fatal_iff g d :
    length g = z_max_buffer z ->
    (receive m z g d = Fatal <-> z_max_buffer z < z_decrypt_headroom z + MAX_HANDSHAKE_SIZE) /\
    (z_decrypt_headroom z + MAX_HANDSHAKE_SIZE <= z_max_buffer z ->
       z_decrypt_headroom z + recv_max_len m z <= z_max_buffer z).
  Proof.
    intro Hg. destruct (size_facts ps m mtu pm) as [F1 [F2 [F3 [_ [_ [_ [_ [_ [_ [F4 _]]]]]]]]]].
    fold z in F1, F2, F3, F4.
    assert (Hroom : z_decrypt_headroom z + MAX_HANDSHAKE_SIZE <= z_max_buffer z ->
       z_decrypt_headroom z + recv_max_len m z <= z_max_buffer z).
    { intro H. unfold recv_max_len. lia. }
    split; [|exact Hroom]. split; intro H.
    - destruct (Nat.lt_ge_cases (z_max_buffer z) (z_decrypt_headroom z + MAX_HANDSHAKE_SIZE)) as [L|L]; [exact L|].
      destruct (receive_ok g d Hg (Hroom L)) as [b [E _]]. congruence.
    - unfold receive, b_alloc.
      assert (A : z_max_buffer z < alignto (z_decrypt_headroom z + recv_max_len m z) 16).
      { pose proof (alignto_16_bounds (z_decrypt_headroom z + recv_max_len m z)).
        unfold recv_max_len in *. lia. }
      destruct (Nat.ltb_spec (z_max_buffer z) (alignto (z_decrypt_headroom z + recv_max_len m z) 16)); [reflexivity|lia].
  Qed.

  Lemma recv_dec_ready sh b g2 :
    In (PKeyed sh) ps -> z_decrypt_headroom z + MAX_HANDSHAKE_SIZE <= z_max_buffer z ->
    length g2 = z_max_buffer z -> buf_wf (z_max_buffer z) b -> b_off b = z_decrypt_headroom z ->
    b_len b <= recv_max_len m z ->
    dec_ready (size_cfg z) sh b g2.
  Proof.
    intros Hin Hroom Hg2 W Ho Hl.
    destruct (size_facts ps m mtu pm) as [F1 [F2 [F3 [F4 [F5 [F6 [F7 [F8 [F9 [F10 F11]]]]]]]]]].
    fold z in F1, F2, F3, F4, F5, F6, F7, F8, F9, F10, F11.
    destruct (F4 _ Hin) as [G1 [G2 G3]]. cbn [p_encrypt_headroom p_overhead] in G1, G2.
    unfold dec_ready, size_cfg. cbn [m_max_buffer m_encrypt_headroom].
    refine (conj F3 (conj Hg2 (conj W (conj _ (conj F1 (conj G1 _)))))); [lia|].
    unfold recv_max_len, MAX_HANDSHAKE_SIZE in *. unfold ssub.
    destruct sh; cbn [enc_space provider_overhead provider_encrypt_headroom p_decrypt_headroom] in *.
    - destruct (Nat.ltb_spec 16 (z_encrypt_headroom z)); lia.
    - destruct (Nat.ltb_spec 16 (z_encrypt_headroom z)); lia.
    - destruct (Nat.ltb_spec 32 (z_encrypt_headroom z)); lia.
    - destruct (Nat.ltb_spec 0 (z_encrypt_headroom z)); lia.
  Qed.

  Lemma strip_none b :
    buf_wf (z_max_buffer z) b -> 1 <= b_len b -> nth 0 (b_data b) 0%N <> 200%N ->
    strip_control b = Ok (Some b).
  Proof.
    intros [W1 W2] Hl Hn. unfold strip_control. rewrite read_ok by lia. cbn [bind].
    assert (E : nth 0 (slice (b_mem b) (b_off b) 1) 0%N = nth 0 (b_data b) 0%N).
    { unfold b_data. rewrite !nth_slice by lia. reflexivity. }
    rewrite E. destruct (N.eqb_spec (nth 0 (b_data b) 0%N) 200%N); [contradiction|reflexivity].
  Qed.

  Lemma strip_safe b :
    buf_wf (z_max_buffer z) b -> 1 <= b_len b -> exists r, strip_control b = Ok r.
  Proof.
    intros [W1 W2] Hl. unfold strip_control. rewrite read_ok by lia. cbn [bind].
    destruct (N.eqb _ _); [|eauto].
    destruct (Nat.ltb_spec (b_len b) (12 + 1)); [eauto|].
    rewrite read_ok by lia. cbn [bind]. rewrite b_pull_ok by lia. cbn [bind].
    destruct (negb _); eauto.
  Qed.

  Lemma receive_data_safe now cy sl sh s g1 g2 d :
    In (PKeyed sh) ps -> computes cy sl ->
    z_decrypt_headroom z + MAX_HANDSHAKE_SIZE <= z_max_buffer z ->
    length g1 = z_max_buffer z -> length g2 = z_max_buffer z ->
    d <> [] -> nth 0 d 0%N <> 200%N ->
    exists r, receive_data now m z cy sh s g1 g2 d = Ok (Some r).
  Proof.
    intros Hin Hc Hroom Hg1 Hg2 Hd0 Hd.
    destruct (receive_fatal_iff g1 d Hg1) as [_ Hr].
    destruct (receive_ok g1 d Hg1 (Hr Hroom)) as [b [E [D [W [Ho Hl]]]]].
    unfold receive_data. rewrite E. cbn [bind].
    pose proof (firstn_le_length (recv_max_len m z) d) as L.
    assert (Hpos : exists k, recv_max_len m z = S k).
    { unfold recv_max_len, MAX_HANDSHAKE_SIZE. exists (Nat.max (max_payload m (z_max_mtu z) + z_overhead z) 1232 - 1). lia. }
    destruct Hpos as [k Hk].
    assert (Hb : 1 <= b_len b /\ nth 0 (b_data b) 0%N = nth 0 d 0%N).
    { rewrite Hl, D, Hk. destruct d as [|x d]; [congruence|]. cbn [firstn length nth]. split; [lia|reflexivity]. }
    rewrite strip_none by (try assumption; try tauto; destruct Hb as [_ ->]; exact Hd). cbn [bind].
    destruct (decrypt_safe now sl (size_cfg z) cy sh s b g2 Hc) as [r Er].
    { apply recv_dec_ready; try assumption. rewrite Hl. exact L. }
    rewrite Er. cbn [bind]. eauto.
  Qed.

  Lemma receive_large_mtu g d :
    length g = z_max_buffer z ->
    MAX_HANDSHAKE_SIZE <= max_payload m (z_max_mtu z) + z_overhead z ->
    exists b, receive m z g d = Ok b /\
      b_data b = firstn (max_payload m (z_max_mtu z) + z_overhead z) d.
  Proof.
    intros Hg Hm.
    destruct (size_facts ps m mtu pm) as [F1 [F2 [F3 [F4 [F5 [F6 [F7 [F8 [F9 [F10 F11]]]]]]]]]].
    fold z in F1, F2, F3, F4, F5, F6, F7, F8, F9, F10, F11.
    assert (E : recv_max_len m z = max_payload m (z_max_mtu z) + z_overhead z).
    { unfold recv_max_len. lia. }
    destruct (receive_ok g d Hg ltac:(lia)) as [b [H1 [H2 _]]].
    exists b. rewrite E in H2. split; assumption.
  Qed.

  (** ** Sending *)
  Lemma enc_ready_payload sh b g :
    In (PKeyed sh) ps -> length g = z_max_buffer z -> buf_wf (z_max_buffer z) b ->
    b_off b mod 16 = 0 -> z_encrypt_headroom z <= b_off b ->
    b_len b <= max_payload m (z_max_mtu z) ->
    enc_ready (size_cfg z) sh b g.
  Proof.
    intros Hin Hg W Hal Ho Hl.
    destruct (size_facts ps m mtu pm) as [F1 [F2 [F3 [F4 [F5 [F6 [F7 [F8 [F9 [F10 F11]]]]]]]]]].
    fold z in F1, F2, F3, F4, F5, F6, F7, F8, F9, F10, F11.
    destruct (F4 _ Hin) as [G1 [G2 G3]]. cbn [p_encrypt_headroom p_overhead] in G1, G2.
    unfold enc_ready, size_cfg. cbn [m_max_buffer].
    refine (conj F3 (conj Hg (conj W (conj Hal (conj _ _))))); [lia|].
    destruct sh; cbn [enc_space provider_encrypt_headroom provider_overhead] in *; lia.
  Qed.

  Lemma iface_read_ok imtu g d :
    length g = z_max_buffer z -> imtu <= z_max_mtu z ->
    exists b, iface_read m z imtu g d = Ok b /\ b_data b = firstn (max_payload m imtu) d /\
      buf_wf (z_max_buffer z) b /\ b_off b = z_encrypt_headroom z /\
      b_len b <= max_payload m (z_max_mtu z).
  Proof.
    intros Hg Hm.
    destruct (size_facts ps m mtu pm) as [F1 [F2 [F3 [F4 [F5 [F6 [F7 [F8 [F9 [F10 F11]]]]]]]]]].
    fold z in F1, F2, F3, F4, F5, F6, F7, F8, F9, F10, F11.
    assert (Hp : max_payload m imtu <= max_payload m (z_max_mtu z)) by (unfold max_payload; clearbody z; destruct m; lia).
    unfold iface_read. rewrite b_alloc_ok by lia. cbn [bind b_mem b_off].
    pose proof (firstn_le_length (max_payload m imtu) d) as L.
    rewrite write_ok by lia. cbn [bind]. eexists. split; [reflexivity|].
    unfold b_data. cbn [b_mem b_off b_len].
    refine (conj _ (conj _ (conj eq_refl _))).
    - apply slice_overwrite_same. lia.
    - split; cbn [b_mem b_off b_len]; [rewrite length_overwrite; lia|lia].
    - lia.
  Qed.

  Lemma iface_send_safe sl cy sh s imtu g1 g2 d :
    In (PKeyed sh) ps -> computes cy sl -> length (s_send s) = 6 ->
    length g1 = z_max_buffer z -> length g2 = z_max_buffer z -> imtu <= z_max_mtu z ->
    exists b r, iface_read m z imtu g1 d = Ok b /\ session_encrypt (size_cfg z) cy sh s b g2 = Ok r.
  Proof.
    intros Hin Hc Hs Hg1 Hg2 Hm.
    destruct (iface_read_ok imtu g1 d Hg1 Hm) as [b [E [D [W [Ho Hl]]]]].
    destruct (size_facts ps m mtu pm) as [F1 _]. fold z in F1.
    destruct (encrypt_safe sl (size_cfg z) cy sh s b g2 Hc Hs) as [r Er].
    { apply enc_ready_payload; try assumption; lia. }
    eauto.
  Qed.

  Lemma iface_multiaf_send_safe sl cy sh s imtu g1 g2 d :
    In (PKeyed sh) ps -> computes cy sl -> length (s_send s) = 6 ->
    length g1 = z_max_buffer z -> length g2 = z_max_buffer z -> imtu <= z_max_mtu z ->
    4 <= imtu -> 4 <= length d ->
    exists b r, iface_read_multiaf m z imtu g1 d = Ok b /\ session_encrypt (size_cfg z) cy sh s b g2 = Ok r.
  Proof.
    intros Hin Hc Hs Hg1 Hg2 Hm H4 Hd4.
    destruct (size_facts ps m mtu pm) as [F1 [F2 [F3 [F4 [F5 [F6 [F7 [F8 [F9 [F10 F11]]]]]]]]]].
    fold z in F1, F2, F3, F4, F5, F6, F7, F8, F9, F10, F11.
    assert (Hp : max_payload m imtu <= max_payload m (z_max_mtu z)) by (unfold max_payload; clearbody z; destruct m; lia).
    assert (Hp4 : 4 <= max_payload m imtu) by (unfold max_payload; clearbody z; destruct m; lia).
    unfold iface_read_multiaf. rewrite b_alloc_ok by lia. cbn [bind b_mem b_off].
    pose proof (firstn_length (max_payload m imtu) d) as L.
    rewrite write_ok by lia. cbn [bind]. rewrite b_pull_ok by (cbn [b_len]; lia).
    cbn [b_mem b_off b_len].
    match goal with |- exists b r, Ok ?bb = Ok b /\ _ => remember bb as b eqn:Eb end.
    destruct (encrypt_safe sl (size_cfg z) cy sh s b g2 Hc Hs) as [r Er].
    { apply enc_ready_payload; try assumption; rewrite Eb; cbn [b_mem b_off b_len]; try lia.
      split; cbn [b_mem b_off b_len]; [rewrite length_overwrite; lia|lia]. }
    eauto.
  Qed.

  (** ** Forwarding *)
  Lemma align_ok b g :
    length g = z_max_buffer z -> buf_wf (z_max_buffer z) b ->
    b_len b <= max_payload m (z_max_mtu z) ->
    exists b', b_align (z_max_buffer z) g b (z_encrypt_headroom z) = Ok b' /\
      b_data b' = b_data b /\ b_len b' = b_len b /\ buf_wf (z_max_buffer z) b' /\
      b_off b' mod 16 = 0 /\ z_encrypt_headroom z <= b_off b'.
  Proof.
    intros Hg [W1 W2] Hl.
    destruct (size_facts ps m mtu pm) as [F1 [F2 [F3 [F4 [F5 [F6 [F7 [F8 [F9 [F10 F11]]]]]]]]]].
    fold z in F1, F2, F3, F4, F5, F6, F7, F8, F9, F10, F11.
    unfold b_align.
    destruct (Nat.leb_spec (z_encrypt_headroom z) (b_off b)) as [H|H]; cbn [andb].
    - destruct (Nat.eqb_spec ((b_off b - z_encrypt_headroom z) mod 16) 0) as [E|E].
      + exists b. refine (conj eq_refl (conj eq_refl (conj eq_refl (conj (conj W1 W2) (conj _ H))))). lia.
      + unfold b_dup. rewrite b_alloc_ok by lia. cbn [bind b_mem b_off b_len].
        rewrite read_ok by lia. cbn [bind]. rewrite write_ok by (rewrite length_slice; lia). cbn [bind].
        eexists. split; [reflexivity|]. cbn [b_mem b_off b_len].
        refine (conj _ (conj eq_refl (conj _ (conj F1 _)))); [| |lia].
        * unfold b_data. cbn [b_mem b_off b_len]. apply slice_overwrite_eq; rewrite ?length_slice; lia.
        * split; cbn [b_mem b_off b_len]; [rewrite length_overwrite; rewrite ?length_slice; lia|lia].
    - unfold b_dup. rewrite b_alloc_ok by lia. cbn [bind b_mem b_off b_len].
      rewrite read_ok by lia. cbn [bind]. rewrite write_ok by (rewrite length_slice; lia). cbn [bind].
      eexists. split; [reflexivity|]. cbn [b_mem b_off b_len].
      refine (conj _ (conj eq_refl (conj _ (conj F1 _)))); [| |lia].
      * unfold b_data. cbn [b_mem b_off b_len]. apply slice_overwrite_eq; rewrite ?length_slice; lia.
      * split; cbn [b_mem b_off b_len]; [rewrite length_overwrite; rewrite ?length_slice; lia|lia].
  Qed.

  Lemma dup_ok b g :
    length g = z_max_buffer z -> buf_wf (z_max_buffer z) b ->
    b_len b <= max_payload m (z_max_mtu z) ->
    exists b', b_dup (z_max_buffer z) g b (z_encrypt_headroom z) = Ok b' /\
      b_data b' = b_data b /\ b_len b' = b_len b /\ buf_wf (z_max_buffer z) b' /\
      b_off b' mod 16 = 0 /\ z_encrypt_headroom z <= b_off b'.
  Proof.
    intros Hg [W1 W2] Hl.
    destruct (size_facts ps m mtu pm) as [F1 [F2 [F3 [F4 [F5 [F6 [F7 [F8 [F9 [F10 F11]]]]]]]]]].
    fold z in F1, F2, F3, F4, F5, F6, F7, F8, F9, F10, F11.
    unfold b_dup. rewrite b_alloc_ok by lia. cbn [bind b_mem b_off b_len].
    rewrite read_ok by lia. cbn [bind]. rewrite write_ok by (rewrite length_slice; lia). cbn [bind].
    eexists. split; [reflexivity|]. cbn [b_mem b_off b_len].
    refine (conj _ (conj eq_refl (conj _ (conj F1 _)))); [| |lia].
    - unfold b_data. cbn [b_mem b_off b_len]. apply slice_overwrite_eq; rewrite ?length_slice; lia.
    - split; cbn [b_mem b_off b_len]; [rewrite length_overwrite; rewrite ?length_slice; lia|lia].
  Qed.

  Lemma forward_safe sl cy sh s dup b g1 g2 g3 :
    In (PKeyed sh) ps -> computes cy sl -> length (s_send s) = 6 ->
    length g1 = z_max_buffer z -> length g2 = z_max_buffer z -> length g3 = z_max_buffer z ->
    buf_wf (z_max_buffer z) b -> b_len b <= max_payload m (z_max_mtu z) ->
    exists r, forward z cy sh s dup b g1 g2 g3 = Ok r.
  Proof.
    intros Hin Hc Hs H1 H2 H3 W Hl. unfold forward.
    destruct (align_ok b g1 H1 W Hl) as [b' [E [D [L [W' [A O]]]]]]. rewrite E. cbn [bind].
    assert (K : exists b2, (if dup then b_dup (z_max_buffer z) g2 b' (z_encrypt_headroom z) else Ok b') = Ok b2 /\
              b_len b2 = b_len b' /\ buf_wf (z_max_buffer z) b2 /\ b_off b2 mod 16 = 0 /\ z_encrypt_headroom z <= b_off b2).
    { destruct dup.
      - destruct (dup_ok b' g2 H2 W' ltac:(lia)) as [b2 [E2 [_ [L2 [W2 [A2 O2]]]]]]. exists b2. auto.
      - exists b'. auto. }
    destruct K as [b2 [E2 [L2 [W2 [A2 O2]]]]]. rewrite E2. cbn [bind].
    destruct (encrypt_safe sl (size_cfg z) cy sh s b2 g3 Hc Hs) as [r Er].
    { apply enc_ready_payload; try assumption. lia. }
    eauto.
  Qed.

  (** payloads of packets of the method with the largest overhead fit *)
  Lemma payload_fits now sl cy sh s b g2 out s' re :
    In (PKeyed sh) ps -> computes cy sl ->
    z_decrypt_headroom z + MAX_HANDSHAKE_SIZE <= z_max_buffer z ->
    length g2 = z_max_buffer z -> buf_wf (z_max_buffer z) b -> b_off b = z_decrypt_headroom z ->
    b_len b <= recv_max_len m z ->
    p_overhead (PKeyed sh) = z_overhead z ->
    MAX_HANDSHAKE_SIZE <= max_payload m (z_max_mtu z) + z_overhead z ->
    session_decrypt now (size_cfg z) cy sh s b g2 = Ok (DecOut out s' re) ->
    b_len out <= max_payload m (z_max_mtu z) /\ buf_wf (z_max_buffer z) out.
  Proof.
    intros Hin Hc Hroom Hg2 W Ho Hl Hov Hmin E.
    assert (R : dec_ready (size_cfg z) sh b g2) by (apply recv_dec_ready; assumption).
    pose proof (session_decrypt_good now sl (size_cfg z) cy sh s b g2 Hc R) as G.
    rewrite E in G. cbn [dec_good] in G.
    destruct G as [Wo [_ [_ [nonce [p [age [[_ [Ln [S _]]] G]]]]]]].
    cbn [size_cfg m_max_buffer] in Wo.
    split; [|exact Wo].
    destruct Hc as [_ [_ [_ [Hd [_ Hp]]]]].
    apply seal_inv in S; try assumption. cbv zeta in S. destruct S as [S0 [_ [_ [_ S]]]].
    assert (Lb : length (b_data b) = b_len b).
    { destruct W as [W1 W2]. unfold b_data. apply length_slice. lia. }
    assert (Lo : length (b_data out) = b_len out).
    { destruct Wo as [W1 W2]. unfold b_data. apply length_slice. lia. }
    assert (Lp : length p <= b_len b - provider_overhead sh).
    { destruct sh; cbn [provider_overhead].
      - destruct S as [S1 [-> _]]. rewrite length_xor_ks, length_slice; lia.
      - destruct S as [S1 [-> _]]. rewrite length_xor_ks, length_slice; lia.
      - destruct S as [S1 [-> _]]. rewrite length_xor_ks, length_slice; lia.
      - rewrite S, length_xor_ks, length_slice; lia. }
    assert (Lo2 : b_len out <= length p).
    { rewrite <- Lo. destruct (reorder_check now s nonce age); try contradiction;
        destruct G as [_ [_ ->]]; cbn [length]; lia. }
    cbn [p_overhead] in Hov. unfold recv_max_len in Hl. lia.
  Qed.

  (** Keepalives *)
  Lemma keepalive_safe sl cy sh s g1 g2 :
    In (PKeyed sh) ps -> computes cy sl -> length (s_send s) = 6 ->
    length g1 = z_max_buffer z -> length g2 = z_max_buffer z ->
    (exists b r, keepalive_buf z g1 = Ok b /\ session_encrypt (size_cfg z) cy sh s b g2 = Ok r) /\
    (exists b r, empty_buf z sh g1 = Ok b /\ session_encrypt (size_cfg z) cy sh s b g2 = Ok r).
  Proof.
    intros Hin Hc Hs H1 H2.
    destruct (size_facts ps m mtu pm) as [F1 [F2 [F3 [F4 [F5 [F6 [F7 [F8 [F9 [F10 F11]]]]]]]]]].
    fold z in F1, F2, F3, F4, F5, F6, F7, F8, F9, F10, F11.
    assert (HM : MAX_HANDSHAKE_SIZE = 1232) by reflexivity.
    assert (Ha : alignto (provider_encrypt_headroom sh) 8 = provider_encrypt_headroom sh) by (destruct sh; reflexivity).
    assert (Hb : provider_encrypt_headroom sh <= 32 /\ provider_encrypt_headroom sh mod 16 = 0 /\ enc_space sh <= 32)
      by (destruct sh; cbn; lia).
    split.
    - unfold keepalive_buf. rewrite b_alloc_ok by lia.
      destruct (encrypt_safe sl (size_cfg z) cy sh s {| b_mem := g1; b_off := z_encrypt_headroom z; b_len := 0 |} g2 Hc Hs) as [r Er].
      { apply enc_ready_payload; try assumption; cbn [b_off b_len]; try lia.
        split; cbn [b_mem b_off b_len]; lia. }
      eauto.
    - unfold empty_buf. rewrite Ha. rewrite b_alloc_ok by lia.
      destruct (encrypt_safe sl (size_cfg z) cy sh s {| b_mem := g1; b_off := provider_encrypt_headroom sh; b_len := 0 |} g2 Hc Hs) as [r Er].
      { unfold enc_ready, size_cfg, buf_wf. cbn [m_max_buffer b_mem b_off b_len]. lia. }
      eauto.
  Qed.
End Recv.

Lemma alignto_mono a b : a <= b -> alignto a 16 <= alignto b 16.
Proof. intro H. unfold alignto, block_count. apply Nat.mul_le_mono_r, Nat.div_le_mono; lia. Qed.

Lemma pool_large_enough ps m mtu start later :
  m = MTap \/ max_mtu m mtu later <= max_mtu m mtu start ->
  z_max_buffer (configure ps m mtu later) <= z_max_buffer (configure ps m mtu start).
Proof.
  intro H. unfold configure. cbn [z_max_buffer]. apply alignto_mono.
  assert (K : max_payload m (max_mtu m mtu later) <= max_payload m (max_mtu m mtu start)).
  { destruct H as [-> |H]; [reflexivity|]. unfold max_payload. destruct m; lia. }
  lia.
Qed.
