(** Agreement of the multiplications on all pairs of basis vectors.  The product of
    two basis vectors only depends on the sum of their exponents, so 255 cases
    are left to computation.  Together with bilinearity this covers all arguments. *)
From Verif Require Import Base BaseLemmas BufferModel ShaProofs GhashModel GhashSpec GhashLinear.
From Coq Require Import Lia ZifyNat ZifyN ZifyBool.
Local Open Scope N_scope.

Definition iter_V (n : nat) (v : N) : N := Nat.iter n Gcm.next_V v.
Lemma iter_V_S n v : iter_V (S n) v = iter_V n (Gcm.next_V v).
Proof. unfold iter_V. induction n as [|n IH]; [reflexivity|]. cbn [Nat.iter nat_rect] in *. unfold Nat.iter in *. cbn in *. now rewrite IH. Qed.
Lemma iter_V_add a b v : iter_V a (iter_V b v) = iter_V (a + b) v.
Proof. unfold iter_V. induction a as [|a IH]; [reflexivity|]. cbn. unfold Nat.iter in *. now rewrite IH. Qed.

Lemma testbit_pow2 i j : N.testbit (2 ^ i) j = (i =? j).
Proof. rewrite N.pow2_bits_eqb. reflexivity. Qed.

(** ** The standard *)
Lemma mult_steps_basis : forall fuel s (i : nat) Z V, (s + fuel <= 128)%nat -> (i < 128)%nat ->
  Gcm.mult_steps (2 ^ N.of_nat i) s fuel Z V =
  if ((s <=? 127 - i) && (127 - i <? s + fuel))%nat%bool then N.lxor Z (iter_V (127 - i - s) V) else Z.
Proof.
  induction fuel as [|fuel IH]; intros s i Z V Hs Hi; cbn [Gcm.mult_steps].
  - destruct (_ && _)%bool eqn:E; [exfalso; lia | reflexivity].
  - rewrite IH by lia. unfold Gcm.bit. rewrite testbit_pow2.
    destruct (N.eqb_spec (N.of_nat i) (127 - N.of_nat s)) as [E|E].
    + assert (127 - i = s)%nat as -> by lia.
      replace ((S s <=? s)%nat) with false by (symmetry; apply Nat.leb_gt; lia). cbn [andb].
      rewrite Nat.leb_refl. replace (s <? s + S fuel)%nat with true by (symmetry; apply Nat.ltb_lt; lia). cbn [andb].
      rewrite Nat.sub_diag. reflexivity.
    + destruct ((S s <=? 127 - i) && (127 - i <? S s + fuel))%nat%bool eqn:E1.
      * replace ((s <=? 127 - i) && (127 - i <? s + S fuel))%nat%bool with true by (symmetry; lia).
        rewrite <- iter_V_S. do 2 f_equal. lia.
      * replace ((s <=? 127 - i) && (127 - i <? s + S fuel))%nat%bool with false by (symmetry; lia). reflexivity.
Qed.
Lemma iter_V_top : forall m, (m <= 127)%nat -> iter_V m (2 ^ 127) = 2 ^ N.of_nat (127 - m).
Proof.
  induction m as [|m IH]; intro H; [reflexivity|]. change (iter_V (S m) (2 ^ 127)) with (Gcm.next_V (iter_V m (2 ^ 127))).
  rewrite IH by lia. replace (N.of_nat (127 - m)) with (N.succ (N.of_nat (127 - S m))) by lia.
  unfold Gcm.next_V. rewrite N.pow_succ_r', N.odd_mul. cbn [N.odd andb]. now rewrite N.mul_comm, N.div_mul by lia.
Qed.
Lemma mult_basis (i j : nat) : (i < 128)%nat -> (j < 128)%nat ->
  Gcm.mult (2 ^ N.of_nat i) (2 ^ N.of_nat j) = iter_V (254 - (i + j)) (2 ^ 127).
Proof.
  intros Hi Hj. unfold Gcm.mult. rewrite mult_steps_basis by lia.
  replace ((0 <=? 127 - i) && (127 - i <? 0 + 128))%nat%bool with true by (symmetry; lia).
  rewrite N.lxor_0_l. replace (N.of_nat j) with (N.of_nat (127 - (127 - j))) by lia.
  rewrite <- (iter_V_top (127 - j)) by lia. rewrite iter_V_add. f_equal. lia.
Qed.

(** ** The implementation *)
Lemma clmul_basis : forall n a (b : nat),
  clmul n a (2 ^ N.of_nat b) = if (b <? n)%nat then N.shiftl a (N.of_nat b) else 0.
Proof.
  induction n as [|n IH]; intros a b; cbn [clmul]; [reflexivity|]. rewrite IH, testbit_pow2.
  destruct (N.eqb_spec (N.of_nat b) (N.of_nat n)) as [E|E].
  - assert (b = n) as -> by lia. rewrite Nat.ltb_irrefl.
    replace (n <? S n)%nat with true by (symmetry; lia). apply N.lxor_0_l.
  - rewrite N.lxor_0_r. destruct (b <? n)%nat eqn:E1, (b <? S n)%nat eqn:E2; try reflexivity; lia.
Qed.

Lemma ones_bit k i : N.testbit (N.ones k) i = (i <? k).
Proof. destruct (N.ltb_spec i k); [now apply N.ones_spec_low | now apply N.ones_spec_high]. Qed.
Lemma lane_lo_pow (i : nat) : lane_lo (2 ^ N.of_nat i) = if (i <? 64)%nat then 2 ^ N.of_nat i else 0.
Proof. unfold lane_lo. destruct (Nat.ltb_spec i 64); apply N.bits_inj; intro k; rewrite N.land_spec, ?N.bits_0, testbit_pow2, ones_bit; lia. Qed.
Lemma lane_hi_pow (i : nat) : (i < 128)%nat -> lane_hi (2 ^ N.of_nat i) = if (i <? 64)%nat then 0 else 2 ^ N.of_nat (i - 64).
Proof.
  intro Hi. unfold lane_hi. destruct (Nat.ltb_spec i 64); apply N.bits_inj; intro k;
    rewrite N.land_spec, N.shiftr_spec', ?N.bits_0, !testbit_pow2, ones_bit; lia.
Qed.
Lemma clmul_0_l n b : clmul n 0 b = 0.
Proof. induction n as [|n IH]; [reflexivity|]. cbn [clmul]. rewrite IH, N.shiftl_0_l. now destruct (N.testbit b _). Qed.
Lemma clmul_0_r n a : clmul n a 0 = 0.
Proof. induction n as [|n IH]; [reflexivity|]. cbn [clmul]. now rewrite IH, N.bits_0. Qed.

(** half of a product, by halves of the arguments *)
Definition half_prod (hi_i hi_j : bool) (i j : nat) : N :=
  if (Bool.eqb hi_i (64 <=? i)%nat && Bool.eqb hi_j (64 <=? j)%nat)%bool
  then 2 ^ N.of_nat (i mod 64 + j mod 64) else 0.
Lemma mod64 i : (i < 128)%nat -> (i mod 64 = if 64 <=? i then i - 64 else i)%nat.
Proof.
  intro H. destruct (Nat.leb_spec 64 i).
  - replace i with (i - 64 + 1 * 64)%nat at 1 by lia. rewrite Nat.mod_add by lia. apply Nat.mod_small. lia.
  - apply Nat.mod_small. lia.
Qed.
Lemma pow_shift a b : N.shiftl (2 ^ N.of_nat a) (N.of_nat b) = 2 ^ N.of_nat (a + b).
Proof. rewrite N.shiftl_mul_pow2, <- N.pow_add_r. f_equal. lia. Qed.

Lemma clmul_lanes (i j : nat) imm : (i < 128)%nat -> (j < 128)%nat ->
  mm_clmulepi64 (2 ^ N.of_nat i) (2 ^ N.of_nat j) imm = half_prod (N.testbit imm 0) (N.testbit imm 4) i j.
Proof.
  intros Hi Hj. unfold mm_clmulepi64, half_prod. rewrite !mod64 by assumption.
  destruct (N.testbit imm 0), (N.testbit imm 4); rewrite ?lane_lo_pow, ?lane_hi_pow by assumption;
    destruct (Nat.ltb_spec i 64), (Nat.ltb_spec j 64), (Nat.leb_spec 64 i), (Nat.leb_spec 64 j); try lia; cbn [Bool.eqb andb];
    rewrite ?clmul_0_l, ?clmul_0_r; try reflexivity;
    rewrite clmul_basis; match goal with |- context [(?x <? 64)%nat] => replace (x <? 64)%nat with true by (symmetry; lia) end;
    apply pow_shift.
Qed.

(** the sum of both halves of a basis vector *)
Lemma fold_halves (i : nat) : (i < 128)%nat ->
  lane_lo (N.lxor (mm_srli_si128 (2 ^ N.of_nat i) 8) (2 ^ N.of_nat i)) = 2 ^ N.of_nat (i mod 64).
Proof.
  intro Hi. rewrite mod64 by exact Hi. unfold lane_lo, mm_srli_si128. change (8 * 8) with 64.
  apply N.bits_inj; intro k. rewrite N.land_spec, N.lxor_spec, N.shiftr_spec', N.land_spec, !testbit_pow2, !ones_bit.
  destruct (Nat.leb_spec 64 i); lia.
Qed.
Lemma clmul_mid (i j : nat) : (i < 128)%nat -> (j < 128)%nat ->
  mm_clmulepi64 (N.lxor (mm_srli_si128 (2 ^ N.of_nat i) 8) (2 ^ N.of_nat i))
                (N.lxor (mm_srli_si128 (2 ^ N.of_nat j) 8) (2 ^ N.of_nat j)) 0 = 2 ^ N.of_nat (i mod 64 + j mod 64).
Proof.
  intros Hi Hj. unfold mm_clmulepi64. cbn [N.testbit]. rewrite !fold_halves by assumption. rewrite clmul_basis.
  pose proof (Nat.mod_upper_bound j 64 ltac:(lia)) as M. replace (j mod 64 <? 64)%nat with true by (symmetry; lia). apply pow_shift.
Qed.

Lemma prod_z1_basis (i j : nat) : (i < 128)%nat -> (j < 128)%nat ->
  prod_z1 (2 ^ N.of_nat i) (2 ^ N.of_nat j) =
  if Bool.eqb (64 <=? i)%nat (64 <=? j)%nat then 0 else 2 ^ N.of_nat (i mod 64 + j mod 64).
Proof.
  intros Hi Hj. unfold prod_z1. rewrite clmul_mid, !clmul_lanes by assumption. unfold half_prod. cbn [N.testbit Pos.testbit Pos.pred_N Pos.pred_double].
  destruct (64 <=? i)%nat, (64 <=? j)%nat; cbn [Bool.eqb andb]; rewrite ?N.lxor_0_r, ?N.lxor_nilpotent; reflexivity.
Qed.


Lemma prod_ph_basis (i j : nat) : (i < 128)%nat -> (j < 128)%nat ->
  prod_ph (2 ^ N.of_nat i) (2 ^ N.of_nat j) = N.land (2 ^ N.of_nat (i + j)) (N.ones 128).
Proof.
  intros Hi Hj. unfold prod_ph. rewrite prod_z1_basis, clmul_lanes by assumption. unfold half_prod.
  change (N.testbit 0 0) with false. change (N.testbit 0 4) with false. unfold mm_slli_si128. change (8 * 8) with (N.of_nat 64).
  rewrite !mod64 by assumption.
  destruct (Nat.leb_spec 64 i), (Nat.leb_spec 64 j); cbn [Bool.eqb andb]; rewrite ?N.shiftl_0_l, ?N.land_0_l, ?N.lxor_0_l, ?N.lxor_0_r, ?pow_shift;
    apply N.bits_inj; intro k; rewrite ?N.land_spec, ?N.bits_0, ?testbit_pow2, ?ones_bit; lia.
Qed.
Lemma prod_pl_basis (i j : nat) : (i < 128)%nat -> (j < 128)%nat ->
  prod_pl (2 ^ N.of_nat i) (2 ^ N.of_nat j) = N.shiftr (2 ^ N.of_nat (i + j)) 128.
Proof.
  intros Hi Hj. unfold prod_pl. rewrite prod_z1_basis, clmul_lanes by assumption. unfold half_prod.
  change (N.testbit 17 0) with true. change (N.testbit 17 4) with true. unfold mm_srli_si128. change (8 * 8) with 64.
  rewrite !mod64 by assumption.
  destruct (Nat.leb_spec 64 i), (Nat.leb_spec 64 j); cbn [Bool.eqb andb]; rewrite ?N.land_0_l, ?N.shiftr_0_l, ?N.lxor_0_l, ?N.lxor_0_r;
    apply N.bits_inj; intro k; rewrite ?N.shiftr_spec', ?N.land_spec, ?N.bits_0, ?testbit_pow2, ?ones_bit; lia.
Qed.

(** the reduction of the carry-less product [p] *)
Definition reduce (p : N) : N :=
  let pl := N.shiftr p 128 in
  let ph := N.land p (N.ones 128) in
  N.lxor (N.lxor (vshl pl 1) (mm_srli_si128 (mm_srli_epi64 ph 63) 8)) (fold_ph ph).
Fixpoint check_reduce (n m : nat) (v : N) : bool :=
  match n with
  | O => true
  | S n => N.eqb (reduce (2 ^ N.of_nat (254 - m))) v && check_reduce n (S m) (Gcm.next_V v)
  end.
Lemma check_reduce_all : check_reduce 255 0 (2 ^ 127) = true.
Proof. vm_cast_no_check (eq_refl true). Qed.
Lemma check_reduce_sound : forall n m v, check_reduce n m v = true ->
  forall k, (k < n)%nat -> reduce (2 ^ N.of_nat (254 - (m + k))) = iter_V k v.
Proof.
  induction n as [|n IH]; intros m v H k Hk; [lia|]. cbn [check_reduce] in H. apply andb_true_iff in H. destruct H as [H1 H2].
  destruct k as [|k].
  - rewrite Nat.add_0_r. now apply N.eqb_eq.
  - rewrite iter_V_S. rewrite <- (IH (S m) _ H2 k ltac:(lia)). do 3 f_equal. lia.
Qed.

Lemma gmul_basis :
  forallb (fun i => forallb (fun j =>
      N.eqb (gmul (2 ^ N.of_nat i) (2 ^ N.of_nat j)) (Gcm.mult (2 ^ N.of_nat i) (2 ^ N.of_nat j)))
    (seq 0 128)) (seq 0 128) = true.
Proof.
  apply forallb_forall. intros i Hi. apply in_seq in Hi. apply forallb_forall. intros j Hj. apply in_seq in Hj. apply N.eqb_eq.
  rewrite mult_basis by lia. rewrite gmul_parts, prod_pl_basis, prod_ph_basis by lia.
  change (reduce (2 ^ N.of_nat (i + j)) = iter_V (254 - (i + j)) (2 ^ 127)).
  rewrite <- (check_reduce_sound _ _ _ check_reduce_all (254 - (i + j)) ltac:(lia)). do 3 f_equal. lia.
Qed.
