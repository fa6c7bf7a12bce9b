(** Agreement of the standard's multiplication with that of polynomials on all
    pairs of basis vectors. *)
From Verif Require Import Base BaseLemmas GhashSpec GhashLinear GhashBasis.
From Coq Require Import Lia ZifyNat ZifyN ZifyBool.
Local Open Scope N_scope.

Lemma poly_mul_basis : forall n a (b : nat), (b < n)%nat -> Gcm.poly_mul n a (2 ^ N.of_nat b) = a * 2 ^ N.of_nat b.
Proof.
  induction n as [|n IH]; intros a b H; [lia|]. cbn [Gcm.poly_mul]. destruct b as [|b].
  - change (2 ^ N.of_nat 0) with 1. change (N.odd 1) with true. change (1 / 2) with 0. cbv iota.
    rewrite (linear_0 _ (poly_mul_lin_b n a)), N.mul_0_r, N.lxor_0_r, N.mul_1_r. reflexivity.
  - replace (N.of_nat (S b)) with (N.succ (N.of_nat b)) by lia. rewrite N.pow_succ_r', N.odd_mul. cbn [N.odd andb].
    rewrite N.lxor_0_l, (N.mul_comm 2 (2 ^ N.of_nat b)), N.div_mul by lia. rewrite IH by lia. lia.
Qed.
Lemma poly_bits_basis : forall n (i : nat), (n <= 128)%nat -> (i < 128)%nat ->
  Gcm.poly_bits n (2 ^ N.of_nat i) = if (127 - i <? n)%nat then 2 ^ N.of_nat (127 - i) else 0.
Proof.
  induction n as [|n IH]; intros i Hn Hi; cbn [Gcm.poly_bits]; [reflexivity|]. rewrite IH by lia. unfold Gcm.bit. rewrite testbit_pow2.
  destruct (N.eqb_spec (N.of_nat i) (127 - N.of_nat n)) as [E|E].
  - assert (127 - i = n)%nat as -> by lia. rewrite Nat.ltb_irrefl. replace (n <? S n)%nat with true by (symmetry; lia). apply N.lxor_0_l.
  - rewrite N.lxor_0_r. destruct (127 - i <? n)%nat eqn:E1, (127 - i <? S n)%nat eqn:E2; try reflexivity; lia.
Qed.

Section Check.
Variables f g : N -> N.
Fixpoint check_poly (n m : nat) (v : N) : bool :=
  match n with
  | O => true
  | S n => N.eqb (f v) (g (2 ^ N.of_nat m)) && check_poly n (S m) (Gcm.next_V v)
  end.
Lemma check_poly_sound : forall n m v, check_poly n m v = true ->
  forall k, (k < n)%nat -> f (iter_V k v) = g (2 ^ N.of_nat (m + k)).
Proof.
  induction n as [|n IH]; intros m v H k Hk; [lia|]. cbn [check_poly] in H. apply andb_true_iff in H. destruct H as [H1 H2].
  destruct k as [|k].
  - rewrite Nat.add_0_r. now apply N.eqb_eq.
  - rewrite iter_V_S. rewrite (IH (S m) _ H2 k ltac:(lia)). do 3 f_equal. lia.
Qed.
End Check.
Lemma check_poly_all : check_poly Gcm.poly (Gcm.poly_mod 127) 255 0 (2 ^ 127) = true.
Proof. vm_cast_no_check (eq_refl true). Qed.

Lemma field_basis :
  forallb (fun i => forallb (fun j =>
      N.eqb (Gcm.poly (Gcm.mult (2 ^ N.of_nat i) (2 ^ N.of_nat j)))
            (Gcm.field_mul (Gcm.poly (2 ^ N.of_nat i)) (Gcm.poly (2 ^ N.of_nat j))))
    (seq 0 128)) (seq 0 128) = true.
Proof.
  apply forallb_forall. intros i Hi. apply in_seq in Hi. apply forallb_forall. intros j Hj. apply in_seq in Hj. apply N.eqb_eq.
  rewrite mult_basis by lia. rewrite (check_poly_sound _ _ _ _ _ check_poly_all) by lia.
  unfold Gcm.field_mul, Gcm.poly. rewrite !poly_bits_basis by lia.
  replace (127 - i <? 128)%nat with true by (symmetry; lia). replace (127 - j <? 128)%nat with true by (symmetry; lia).
  rewrite poly_mul_basis by lia. rewrite <- N.pow_add_r. do 2 f_equal. lia.
Qed.
