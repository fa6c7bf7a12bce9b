(** Proofs: HMAC, HKDF, comparisons. *)
From Verif Require Import Base BaseLemmas BufferModel BufferProofs ShaModel ShaSpec ShaProofs.
Local Open Scope N_scope.

Lemma pointers_nil ins : pointers_ok [] ins.
Proof. intros i H. cbn [length] in H. lia. Qed.

Lemma pointers_cons b m ins : length b = 32%nat -> pointers_ok m ins -> pointers_ok (b ++ m) (b :: ins).
Proof.
  intros Hb Hp [|i] H.
  - exists b. split; [reflexivity|]. split; [lia|]. intros j Hj _. cbn [Nat.mul Nat.add].
    rewrite app_nth1 by lia. reflexivity.
  - cbn [nth_error]. rewrite app_length in H.
    destruct (Hp i ltac:(lia)) as [mem [E [L N]]]. exists mem. split; [exact E|].
    rewrite app_length. split; [lia|]. intros j Hj Hm. rewrite app_nth2 by lia.
    rewrite N by lia. f_equal. lia.
Qed.

Lemma nth_error_firstn_lt {A} (l : list A) n i : (i < n)%nat -> nth_error (firstn n l) i = nth_error l i.
Proof.
  revert n i; induction l as [|x l IH]; intros [|n] [|i] H; cbn [firstn nth_error]; try lia; try reflexivity.
  apply IH. lia.
Qed.

Lemma pointers_firstn m ins : pointers_ok m ins -> pointers_ok m (firstn ((length m + 31) / 32) ins).
Proof. intros Hp i H. rewrite nth_error_firstn_lt by lia. exact (Hp i H). Qed.

Lemma pointers_blocks bs : Forall (fun b : bytes => length b = 32%nat) bs -> pointers_ok (concat bs) bs.
Proof.
  induction bs as [|b bs IH]; intro H; cbn [concat]; [apply pointers_nil|].
  apply Forall_cons_iff in H. destruct H as [H1 H2]. apply pointers_cons; [exact H1|now apply IH].
Qed.

Lemma length_concat_blocks bs : Forall (fun b : bytes => length b = 32%nat) bs -> (length bs * 32 = length (concat bs))%nat.
Proof.
  induction bs as [|b bs IH]; intro H; cbn [concat length]; [reflexivity|].
  apply Forall_cons_iff in H. destruct H as [H1 H2]. rewrite app_length, H1, <- (IH H2). lia.
Qed.

Lemma pointers_buffer mem len : (len <= length mem)%nat -> pointers_ok (firstn len mem) (block_pointers mem len).
Proof.
  intros Hl i H. rewrite firstn_length_le in H by exact Hl.
  exists (skipn (32 * i) mem). split.
  - unfold block_pointers. rewrite nth_error_map.
    rewrite (nth_error_nth' (seq 0 ((len + 31) / 32)) 0%nat) by (rewrite seq_length; lia).
    rewrite seq_nth by lia. reflexivity.
  - rewrite firstn_length_le by exact Hl. rewrite skipn_length. split; [lia|].
    intros j Hj Hm. rewrite nth_skipn_add, nth_firstn_lt by exact Hm. reflexivity.
Qed.

Lemma wf_firstn n l : wf_bytes l -> wf_bytes (firstn n l).
Proof. intro H. rewrite <- (firstn_skipn n l) in H. now apply wf_app in H. Qed.

Lemma wf_concat bs : Forall wf_bytes bs -> wf_bytes (concat bs).
Proof.
  induction bs as [|b bs IH]; intro H; cbn [concat]; [apply wf_nil|].
  apply Forall_cons_iff in H. destruct H. apply wf_app. auto.
Qed.

Lemma sha256_spec mem len :
  (len <= length mem)%nat -> wf_bytes mem -> N.of_nat len < 2 ^ 29 ->
  sha256 mem len = Ok (Fips.sha256 (firstn len mem)).
Proof.
  intros Hl Hwf Hb. unfold sha256.
  assert (E : length (firstn len mem) = len) by now apply firstn_length_le.
  pose proof (sha256_list_spec (firstn len mem) (block_pointers mem len) (wf_firstn len mem Hwf)
               ltac:(rewrite E; exact Hb) (pointers_buffer mem len Hl)) as S.
  rewrite E in S. rewrite S. reflexivity.
Qed.

Lemma sha256_blocks_spec bs :
  Forall (fun b : bytes => length b = 32%nat /\ wf_bytes b) bs -> N.of_nat (32 * length bs) < 2 ^ 29 ->
  sha256_blocks bs = Ok (Fips.sha256 (concat bs)).
Proof.
  intros H Hb.
  assert (H1 : Forall (fun b : bytes => length b = 32%nat) bs) by (eapply Forall_impl; [|exact H]; cbn beta; tauto).
  assert (H2 : Forall wf_bytes bs) by (eapply Forall_impl; [|exact H]; cbn beta; tauto).
  unfold sha256_blocks. pose proof (length_concat_blocks bs H1) as L. rewrite L.
  rewrite (sha256_list_spec (concat bs) bs (wf_concat bs H2)); [reflexivity| |now apply pointers_blocks].
  rewrite <- L. lia.
Qed.

(** ** Shape of the output *)
Lemma compress_length H M : length H = 8%nat -> length (Fips.compress H M) = 8%nat.
Proof. intro L. unfold Fips.compress. rewrite map_length, combine_length, L. reflexivity. Qed.

Lemma fold_compress_length bs : forall H, length H = 8%nat -> length (fold_left Fips.compress bs H) = 8%nat.
Proof.
  induction bs as [|b bs IH]; intros H L; cbn [fold_left]; [exact L|]. apply IH. now apply compress_length.
Qed.

Lemma flat_be4 l : length (flat_map (be_bytes 4) l) = (4 * length l)%nat /\ wf_bytes (flat_map (be_bytes 4) l).
Proof.
  induction l as [|x l [IH1 IH2]]; cbn [flat_map length]; [split; [reflexivity|apply wf_nil]|].
  rewrite app_length, be_bytes_length, IH1. split; [lia|]. apply wf_app. split; [apply be_bytes_wf|exact IH2].
Qed.

Lemma sha256_shape m : length (Fips.sha256 m) = 32%nat /\ wf_bytes (Fips.sha256 m).
Proof.
  unfold Fips.sha256.
  match goal with |- context [flat_map _ ?l] => destruct (flat_be4 l) as [A B]; split; [rewrite A|exact B] end.
  rewrite fold_compress_length; [reflexivity|]. rewrite <- H_table. reflexivity.
Qed.

(** ** HMAC *)
Lemma xor_word_bytes c a b x y :
  is_byte a -> is_byte b -> is_byte x -> is_byte y -> is_byte c ->
  le_bytes 4 (N.lxor (le_val [a; b; x; y]) (le_val [c; c; c; c])) =
  [N.lxor c a; N.lxor c b; N.lxor c x; N.lxor c y].
Proof.
  intros Ha Hb Hx Hy Hc. unfold is_byte in *.
  assert (S : forall p q r s, p < 256 -> q < 256 ->
     N.lxor (p + 256 * r) (q + 256 * s) = N.lxor p q + 256 * N.lxor r s).
  { intros p q r s Hp Hq. change 256 with (2 ^ 8) in *.
    rewrite !(N.mul_comm (2 ^ 8)). rewrite <- !(lor_disjoint _ _ 8) by (try apply lxor_below; assumption).
    apply N.bits_inj. intro i. rewrite N.lxor_spec, !N.lor_spec, N.lxor_spec.
    destruct (N.lt_ge_cases i 8) as [Hi|Hi].
    - rewrite !N.mul_pow2_bits_low by exact Hi. rewrite !orb_false_r. reflexivity.
    - rewrite !N.mul_pow2_bits_high by exact Hi. rewrite N.lxor_spec.
      assert (Z : forall u, u < 2 ^ 8 -> N.testbit u i = false).
      { intros u Hu. destruct (N.eq_dec u 0) as [->|Hz]; [apply N.bits_0|].
        apply N.bits_above_log2. apply N.lt_le_trans with 8; [|exact Hi]. apply N.log2_lt_pow2; lia. }
      rewrite !Z by assumption. reflexivity. }
  assert (D : forall p r, p < 256 -> (p + 256 * r) mod 256 = p /\ (p + 256 * r) / 256 = r) by (intros; lia).
  assert (X : forall p, p < 256 -> N.lxor p c < 256) by (intros p Hp; apply (lxor_below p c 8); assumption).
  cbn [le_val]. rewrite !S by assumption. cbn [le_bytes].
  change (0 : N) with 0. rewrite ?N.lxor_0_l.
  rewrite !(fun p r H => proj2 (D p r H)) by (apply X; assumption).
  rewrite !(fun p r H => proj1 (D p r H)) by (apply X; assumption).
  rewrite !(N.lxor_comm c). reflexivity.
Qed.

Lemma xor_words_spec c n : is_byte c -> forall key,
  wf_bytes key -> length key = (4 * n)%nat ->
  xor_words n key (le_val [c; c; c; c]) = map (N.lxor c) key.
Proof.
  intro Hc. induction n as [|n IH]; intros key Hwf Hl; cbn [xor_words].
  - destruct key; [reflexivity|discriminate].
  - destruct key as [|a [|b [|x [|y key]]]]; cbn [length] in Hl; try lia.
    apply wf_cons in Hwf. destruct Hwf as [Ha Hwf]. apply wf_cons in Hwf. destruct Hwf as [Hb Hwf].
    apply wf_cons in Hwf. destruct Hwf as [Hx Hwf]. apply wf_cons in Hwf. destruct Hwf as [Hy Hwf].
    cbn [firstn skipn]. rewrite xor_word_bytes by assumption. rewrite IH by (assumption || lia). reflexivity.
Qed.

Lemma wf_map_lxor c l : is_byte c -> wf_bytes l -> wf_bytes (map (N.lxor c) l).
Proof.
  intros Hc H. apply Forall_forall. intros x Hx. apply in_map_iff in Hx. destruct Hx as [y [<- Hy]].
  apply (lxor_below c y 8); [exact Hc|]. exact (proj1 (Forall_forall _ _) H y Hy).
Qed.

Lemma hmac_list_spec key m ins :
  wf_bytes key -> length key = 32%nat -> wf_bytes m -> N.of_nat (length m) + 64 < 2 ^ 29 ->
  pointers_ok m ins -> ((length m + 31) / 32 <= length ins)%nat ->
  hmacsha256_list key ins (length m) = Ok (Rfc.hmac key m).
Proof.
  intros Hk Lk Hm Lm Hp Hc. unfold hmacsha256_list. cbv zeta.
  destruct (Nat.ltb_spec (length ins) ((length m + 31) / 32)) as [B|_]; [lia|].
  change 0x36363636 with (le_val [0x36; 0x36; 0x36; 0x36]). change 0x5c5c5c5c with (le_val [0x5c; 0x5c; 0x5c; 0x5c]).
  rewrite !xor_words_spec by (try reflexivity; assumption).
  assert (E : (length m + 64 = length (map (N.lxor 0x36) key ++ ipad2 ++ m))%nat).
  { assert (L1 : length (map (N.lxor 0x36) key) = 32%nat) by (rewrite map_length; exact Lk).
    rewrite !app_length. unfold byte in *. rewrite L1. change (length ipad2) with 32%nat. lia. }
  rewrite E. remember (map (N.lxor 0x36) key ++ ipad2 ++ m : bytes) as m1 eqn:E1.
  rewrite (sha256_list_spec m1).
  2:{ rewrite E1. apply wf_app. split; [apply wf_map_lxor; [reflexivity|exact Hk]|]. apply wf_app. split; [|exact Hm].
      apply wf_bytesb_spec. reflexivity. }
  2:{ clear -E Lm. unfold bytes, byte in *. lia. }
  2:{ rewrite E1. cbn [app]. apply pointers_cons; [now rewrite map_length|]. apply pointers_cons; [reflexivity|].
      now apply pointers_firstn. }
  cbn [bind].
  destruct (sha256_shape m1) as [S1 S2].
  rewrite sha256_blocks_spec.
  - f_equal. unfold Rfc.hmac. cbv zeta. rewrite Lk. change (64 - 32)%nat with 32%nat. rewrite !map_app.
    change (map (N.lxor 0x36) (repeat 0 32)) with ipad2. change (map (N.lxor 0x5c) (repeat 0 32)) with opad2.
    cbn [concat]. rewrite app_nil_r, <- !app_assoc, E1. reflexivity.
  - constructor; [split; [now rewrite map_length|apply wf_map_lxor; [reflexivity|exact Hk]]|].
    constructor; [split; [reflexivity|apply wf_bytesb_spec; reflexivity]|].
    constructor; [split; assumption|constructor].
  - reflexivity.
Qed.

Lemma hmac_spec key mem len :
  wf_bytes key -> length key = 32%nat -> wf_bytes mem -> (len <= length mem)%nat -> N.of_nat len + 64 < 2 ^ 29 ->
  hmacsha256 key mem len = Ok (Rfc.hmac key (firstn len mem)).
Proof.
  intros Hk Lk Hm Hl Hb. unfold hmacsha256.
  assert (E : length (firstn len mem) = len) by now apply firstn_length_le.
  pose proof (hmac_list_spec key (firstn len mem) (block_pointers mem len) Hk Lk (wf_firstn len mem Hm)) as S.
  rewrite E in S. apply S; [exact Hb|now apply pointers_buffer|].
  unfold block_pointers. rewrite map_length, seq_length. lia.
Qed.

Lemma hmac_blocks_spec key bs :
  wf_bytes key -> length key = 32%nat ->
  Forall (fun b : bytes => length b = 32%nat /\ wf_bytes b) bs -> N.of_nat (32 * length bs) + 64 < 2 ^ 29 ->
  hmacsha256_blocks key bs = Ok (Rfc.hmac key (concat bs)).
Proof.
  intros Hk Lk H Hb.
  assert (H1 : Forall (fun b : bytes => length b = 32%nat) bs) by (eapply Forall_impl; [|exact H]; cbn beta; tauto).
  assert (H2 : Forall wf_bytes bs) by (eapply Forall_impl; [|exact H]; cbn beta; tauto).
  unfold hmacsha256_blocks. pose proof (length_concat_blocks bs H1) as L. rewrite L.
  apply hmac_list_spec; [exact Hk|exact Lk|now apply wf_concat| |now apply pointers_blocks|]; rewrite <- L; lia.
Qed.

Lemma hmac_shape key m : length (Rfc.hmac key m) = 32%nat /\ wf_bytes (Rfc.hmac key m).
Proof. unfold Rfc.hmac. cbv zeta. apply sha256_shape. Qed.

(** ** HKDF *)
Lemma expand_loop_spec prk info n : forall j,
  wf_bytes prk -> length prk = 32%nat -> wf_bytes info -> N.of_nat (length info) + 97 < 2 ^ 29 ->
  (1 <= j)%nat -> (j + n <= 255)%nat ->
  expand_loop n prk info (N.of_nat j) (Rfc.T prk info j) = Ok (map (Rfc.T prk info) (seq (S j) n)).
Proof.
  induction n as [|n IH]; intros j Hk Lk Hi Li Hj Hn; cbn [expand_loop seq map]; [reflexivity|]. cbv zeta.
  assert (E : (N.of_nat j + 1) mod 256 = N.of_nat (S j)) by (rewrite N.mod_small; lia).
  rewrite E.
  assert (ST : length (Rfc.T prk info j) = 32%nat /\ wf_bytes (Rfc.T prk info j)).
  { destruct j as [|j]; [lia|]. cbn [Rfc.T]. apply hmac_shape. }
  destruct ST as [T1 T2].
  rewrite hmac_spec; [|exact Hk|exact Lk| |lia|].
  - rewrite firstn_all. cbn [bind]. change (Rfc.hmac prk (Rfc.T prk info j ++ info ++ [N.of_nat (S j)])) with (Rfc.T prk info (S j)).
    rewrite IH by (assumption || lia). reflexivity.
  - apply wf_app. split; [exact T2|]. apply wf_app. split; [exact Hi|]. apply wf_cons. split; [|apply wf_nil].
    unfold is_byte. lia.
  - rewrite !app_length, T1. cbn [length]. lia.
Qed.

Lemma hkdf_expand_spec n prk info :
  wf_bytes prk -> length prk = 32%nat -> wf_bytes info -> N.of_nat (length info) + 97 < 2 ^ 29 -> (n <= 255)%nat ->
  hkdf_expand n prk info = Ok (map (Rfc.T prk info) (seq 1 n)).
Proof.
  intros Hk Lk Hi Li Hn. destruct n as [|n]; cbn [hkdf_expand seq map]; [reflexivity|].
  assert (E : (length info + 1 = length (info ++ [1%N]))%nat) by (rewrite app_length; reflexivity).
  rewrite hmac_spec; [|exact Hk|exact Lk| |lia|lia].
  - rewrite E, firstn_all. cbn [bind].
    change (Rfc.hmac prk (info ++ [1])) with (Rfc.T prk info 1).
    change 1 with (N.of_nat 1) at 1.
    rewrite (expand_loop_spec prk info n 1) by (assumption || lia). reflexivity.
  - apply wf_app. split; [exact Hi|]. apply wf_cons. split; [reflexivity|apply wf_nil].
Qed.

(** ** Comparison *)
Lemma memequal_loop_zero n : forall v a b, (n <= length a)%nat -> (n <= length b)%nat ->
  memequal_loop n v a b = 0 <-> v = 0 /\ firstn n a = firstn n b.
Proof.
  induction n as [|n IH]; intros v a b Ha Hb; cbn [memequal_loop firstn].
  - tauto.
  - destruct a as [|x a], b as [|y b]; cbn [length] in Ha, Hb; try lia. cbn [firstn].
    rewrite IH by lia. rewrite N.lor_eq_0_iff, N.lxor_eq_0_iff. split.
    + intros [[-> ->] ->]. split; reflexivity.
    + intros [-> H]. injection H as -> H. auto.
Qed.

Lemma secure_memequal_spec a b n : (n <= length a)%nat -> (n <= length b)%nat ->
  secure_memequal a b n = true <-> firstn n a = firstn n b.
Proof.
  intros Ha Hb. unfold secure_memequal. rewrite N.eqb_eq, memequal_loop_zero by assumption. tauto.
Qed.

Lemma le_val_inj l1 l2 :
  wf_bytes l1 -> wf_bytes l2 -> length l1 = length l2 -> le_val l1 = le_val l2 -> l1 = l2.
Proof.
  intros H1 H2 HL HV. rewrite <- (le_bytes_le_val l1 H1), <- (le_bytes_le_val l2 H2). congruence.
Qed.

Lemma wf_slice l o n : wf_bytes l -> wf_bytes (slice l o n).
Proof.
  intro H. unfold slice. apply wf_firstn. rewrite <- (firstn_skipn o l) in H. now apply wf_app in H.
Qed.

Lemma block_equal_spec a b :
  length a = 16%nat -> length b = 16%nat -> wf_bytes a -> wf_bytes b -> (block_equal a b = true <-> a = b).
Proof.
  intros La Lb Ha Hb. unfold block_equal. cbv zeta. rewrite N.eqb_eq, !N.lor_eq_0_iff, !N.lxor_eq_0_iff.
  split; [|intros ->; repeat split].
  intros [[[[_ E0] E1] E2] E3].
  assert (I : forall i, (i < 4)%nat -> le_val (slice a (4 * i) 4) = le_val (slice b (4 * i) 4) ->
              slice a (4 * i) 4 = slice b (4 * i) 4).
  { intros i Hi H. apply le_val_inj; [now apply wf_slice|now apply wf_slice| |exact H].
    rewrite !length_slice by lia. reflexivity. }
  apply I in E0; [|lia]. apply I in E1; [|lia]. apply I in E2; [|lia]. apply I in E3; [|lia].
  rewrite <- (slice_all a), <- (slice_all b), La, Lb.
  assert (P : forall l : bytes, slice l 0 16 = slice l (4 * 0) 4 ++ slice l (4 * 1) 4 ++ slice l (4 * 2) 4 ++ slice l (4 * 3) 4).
  { intro l. change 16%nat with (4 + (4 + (4 + 4)))%nat. rewrite !slice_add. reflexivity. }
  rewrite !P. congruence.
Qed.

Lemma verify_spec mac key mem len :
  wf_bytes key -> length key = 32%nat -> wf_bytes mem -> (len <= length mem)%nat -> N.of_nat len + 64 < 2 ^ 29 ->
  length mac = 32%nat ->
  exists r, hmacsha256_verify mac key mem len = Ok r /\ (r = true <-> mac = Rfc.hmac key (firstn len mem)).
Proof.
  intros Hk Lk Hm Hl Hb Lmac. unfold hmacsha256_verify. rewrite hmac_spec by assumption. cbn [bind].
  destruct (hmac_shape key (firstn len mem)) as [S1 _].
  eexists. split; [reflexivity|]. rewrite secure_memequal_spec by lia.
  rewrite (firstn_all2 mac) by lia. rewrite firstn_all2 by lia. split; congruence.
Qed.

(** ** Pointer slots *)
Lemma slots_read m ins : wf_bytes m -> N.of_nat (length m) < 2 ^ 29 -> pointers_ok m ins ->
  exists out slots, sha256_list ins (length m) = Ok (out, slots) /\
    (slots <= (length m + 31) / 32 <-> 33 <= length m mod 64 <= 55)%nat /\
    ((length m + 31) / 32 <= slots <= (length m + 31) / 32 + 2)%nat.
Proof.
  intros Hwf Hl Hp. rewrite (sha256_list_spec m ins Hwf Hl Hp). do 2 eexists. split; [reflexivity|]. lia.
Qed.
