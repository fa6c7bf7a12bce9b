(** The modular arithmetic of uhash_builtin.c. *)
From Verif Require Import Base BaseLemmas BufferModel BufferProofs ShaProofs UhashModel UhashSpec.
From Coq Require Import ZifyBool ZifyNat ZifyN.
Local Open Scope N_scope.
Local Ltac Zify.zify_post_hook ::= Z.div_mod_to_equations.

Lemma land_mask x n m : m = N.ones n -> N.land x m = x mod 2 ^ n.
Proof. intros ->. apply N.land_ones. Qed.

Lemma shiftr_div x n : N.shiftr x n = x / 2 ^ n.
Proof. apply N.shiftr_div_pow2. Qed.

Lemma join64_val h l : l < U32 -> join64 h l = h * U32 + l.
Proof.
  intro H. unfold join64. rewrite N.shiftl_mul_pow2, N.lor_comm.
  rewrite (lor_disjoint l h 32) by exact H. change (2 ^ 32) with U32. lia.
Qed.

Lemma sel_spec a b s : a < U64 -> b < U64 -> s <= 1 -> sel a b s = if N.eqb s 1 then b else a.
Proof.
  intros Ha Hb Hs. unfold sel.
  assert (E : s = 0 \/ s = 1) by lia. destruct E as [-> | ->].
  - change ((0 + (U64 - 1)) mod U64) with (N.ones 64). cbn [N.eqb].
    rewrite N.land_comm, N.land_ones, N.mod_small by (apply lxor_below; assumption).
    now rewrite (N.lxor_comm a b), <- N.lxor_assoc, N.lxor_nilpotent, N.lxor_0_l.
  - change ((1 + (U64 - 1)) mod U64) with 0. cbn [N.eqb Pos.eqb]. now rewrite N.land_0_l, N.lxor_0_r.
Qed.

Lemma mod_p36_spec a : a < U64 -> mod_p36 a = a mod Umac.prime36.
Proof.
  intro Ha. unfold mod_p36. cbv zeta.
  rewrite !(land_mask _ 36 0xfffffffff eq_refl), !shiftr_div.
  change Umac.prime36 with 68719476731. change (2 ^ 36) with 68719476736. unfold U64 in *.
  remember (a / 68719476736) as q eqn:Eq. remember (a mod 68719476736) as r eqn:Er.
  assert (Hq : q < 268435456) by lia. assert (Hr : r < 68719476736) by lia.
  assert (Ea : a = 68719476736 * q + r) by lia.
  rewrite (N.mod_small (r + 5 * q)) by lia. rewrite (N.mod_small (r + 5 * q + 5)) by lia.
  assert (Es : (r + 5 * q + 5) / 68719476736 <= 1) by lia.
  rewrite sel_spec; [|unfold U64; lia|unfold U64; lia|exact Es].
  assert (Em : a mod 68719476731 = (r + 5 * q) mod 68719476731).
  { rewrite Ea. replace (68719476736 * q + r) with ((r + 5 * q) + q * 68719476731) by lia. apply N.mod_add. lia. }
  rewrite Em. clear Em Ea Eq Er. destruct (N.eqb_spec ((r + 5 * q + 5) / 68719476736) 1); lia.
Qed.

(** ** Modulo 2^64 - 59 *)
Lemma carry_spec a b : a < U64 -> b < U64 ->
  N.shiftr (N.lor (N.land a b) (N.land (N.lor a b) (N.lxor ((a + b) mod U64) (U64 - 1)))) 63 =
  if U64 <=? a + b then 1 else 0.
Proof.
  intros Ha Hb. remember ((a + b) mod U64) as c eqn:Ec.
  assert (Hc : c < U64) by (subst c; apply N.mod_lt; discriminate).
  assert (B : forall x, x < U64 -> N.shiftr x 63 = N.b2n (N.testbit x 63)).
  { intros x Hx. rewrite N.testbit_spec', shiftr_div. unfold U64 in Hx. change (2 ^ 63) with 9223372036854775808. lia. }
  assert (T : forall x, x < U64 -> N.testbit x 63 = (9223372036854775808 <=? x)).
  { intros x Hx. rewrite N.testbit_eqb. change (2 ^ 63) with 9223372036854775808. unfold U64 in Hx. lia. }
  rewrite B.
  - rewrite N.lor_spec, !N.land_spec, N.lor_spec, N.lxor_spec, (T a Ha), (T b Hb), (T c Hc).
    change (N.testbit (U64 - 1) 63) with true. subst c. unfold U64 in *.
    remember ((a + b) mod 18446744073709551616) as c eqn:Ec.
    assert (Ec' : c = a + b \/ c + 18446744073709551616 = a + b) by lia.
    destruct (N.leb_spec 9223372036854775808 a), (N.leb_spec 9223372036854775808 b),
      (N.leb_spec 9223372036854775808 c), (N.leb_spec 18446744073709551616 (a + b)); cbn; try reflexivity; clear Ec; lia.
  - assert (LB : forall x y, x < U64 -> y < U64 -> N.lor x y < U64).
    { intros x y Hx Hy. change U64 with (2 ^ 64) in *. destruct (N.eq_dec (N.lor x y) 0) as [E|E]; [rewrite E; reflexivity|].
      apply N.log2_lt_pow2; [lia|]. rewrite N.log2_lor.
      assert (L : forall z, z < 2 ^ 64 -> N.log2 z < 64).
      { intros z Hz. destruct (N.eq_dec z 0) as [->|Hn]; [reflexivity|]. apply N.log2_lt_pow2; [lia|exact Hz]. }
      pose proof (L x Hx). pose proof (L y Hy). lia. }
    assert (AB : forall x y, x < U64 -> N.land x y < U64).
    { intros x y Hx. change U64 with (2 ^ 64) in *. destruct (N.eq_dec (N.land x y) 0) as [E|E]; [rewrite E; reflexivity|].
      apply N.log2_lt_pow2; [lia|]. pose proof (N.log2_land x y).
      assert (N.log2 x < 64). { apply N.log2_lt_pow2; [|exact Hx]. destruct x; [|lia]. cbn in E. lia. }
      lia. }
    apply LB; [now apply AB|]. apply AB. now apply LB.
Qed.

Definition p64 : N := 18446744073709551557.

Lemma add_p64_spec a b : a < p64 -> b < U64 ->
  add_p64 a b = if p64 <=? a + b then a + b - p64 else a + b.
Proof.
  intros Ha Hb. unfold add_p64. cbv zeta.
  assert (E : (a + 59) mod U64 = a + 59) by (apply N.mod_small; unfold U64, p64 in *; lia).
  rewrite E, carry_spec by (unfold U64, p64 in *; lia).
  rewrite sel_spec.
  - unfold U64, p64 in *. destruct (N.leb_spec 18446744073709551616 (a + 59 + b)); cbn [N.eqb Pos.eqb];
      destruct (N.leb_spec 18446744073709551557 (a + b)); lia.
  - apply N.mod_lt. discriminate.
  - apply N.mod_lt. discriminate.
  - destruct (N.leb_spec U64 (a + 59 + b)); lia.
Qed.

Lemma add_p64_mod a b : a < p64 -> b < U64 -> a + b < 2 * p64 -> add_p64 a b = (a + b) mod p64.
Proof.
  intros Ha Hb Hab. rewrite add_p64_spec by assumption. unfold p64 in *.
  destruct (N.leb_spec 18446744073709551557 (a + b)); lia.
Qed.

Definition short_key (k : N) : Prop := k / U32 < 33554432 /\ k mod U32 < 33554432.

Lemma mul128_spec ah al bh bl :
  ah < U32 -> al < U32 -> bh < 33554432 -> bl < 33554432 ->
  let m := mul128 (ah, al) (bh, bl) in
  fst m * U64 + snd m = (ah * U32 + al) * (bh * U32 + bl) /\ snd m < U64 /\ fst m < 2 ^ 58.
Proof.
  intros Hah Hal Hbh Hbl. unfold mul128, split64, mul64. cbn [fst snd]. rewrite !shiftr_div.
  change (2 ^ 32) with U32.
  assert (P : forall x y, x < U32 -> y < 33554432 -> x * y < 144115188075855872).
  { intros x y Hx Hy. change 144115188075855872 with (U32 * 33554432). apply N.mul_lt_mono; assumption. }
  pose proof (P _ _ Hal Hbl) as P1. pose proof (P _ _ Hal Hbh) as P2.
  pose proof (P _ _ Hah Hbl) as P3. pose proof (P _ _ Hah Hbh) as P4.
  replace ((ah * U32 + al) * (bh * U32 + bl)) with (ah * bh * U64 + (al * bh + ah * bl) * U32 + al * bl)
    by (change U64 with (U32 * U32); lia).
  remember (al * bl) as x1 eqn:E1. remember (al * bh) as x2 eqn:E2. remember (ah * bl) as x3 eqn:E3. remember (ah * bh) as x4 eqn:E4.
  clear E1 E2 E3 E4 P.
  rewrite join64_val by (apply N.mod_lt; discriminate).
  rewrite (N.mod_small x1), (N.mod_small x2), (N.mod_small x3), (N.mod_small x4) by (unfold U64; lia).
  rewrite (N.mod_small (x2 + x3)) by (unfold U64; lia).
  rewrite (N.mod_small (x2 + x3 + x1 / U32)) by (unfold U64, U32; lia).
  rewrite (N.mod_small (x4 + (x2 + x3 + x1 / U32) / U32)) by (unfold U64, U32; lia).
  change (2 ^ 58) with 288230376151711744. unfold U64, U32.
  split; [lia|]. split; lia.
Qed.

Lemma mul_p64_spec a k : a < U64 -> short_key k -> mul_p64 a k = (a * k) mod p64.
Proof.
  intros Ha [Hk1 Hk2]. unfold mul_p64, split64. rewrite !shiftr_div. change (2 ^ 32) with U32.
  assert (Ah : a / U32 < U32) by (unfold U32, U64 in *; lia).
  assert (Al : a mod U32 < U32) by (apply N.mod_lt; discriminate).
  destruct (mul128_spec (a / U32) (a mod U32) (k / U32) (k mod U32) Ah Al Hk1 Hk2) as [V [Lo Hi]].
  cbv zeta. remember (mul128 (a / U32, a mod U32) (k / U32, k mod U32)) as m eqn:Em. clear Em.
  replace (a / U32 * U32 + a mod U32) with a in V by (unfold U32; lia).
  replace (k / U32 * U32 + k mod U32) with k in V by (unfold U32; lia).
  change (2 ^ 58) with 288230376151711744 in Hi.
  rewrite (N.mod_small (fst m * 59)) by (unfold U64; lia).
  rewrite add_p64_mod by (unfold p64, U64 in *; lia).
  rewrite <- V. replace (fst m * U64 + snd m) with (fst m * 59 + snd m + fst m * p64) by (unfold U64, p64; lia).
  symmetry. apply N.mod_add. discriminate.
Qed.

Lemma l2add_spec Y K m : Y < U64 -> m < U64 -> short_key K ->
  l2add Y K m = Umac.poly_step (2 ^ 64 - 2 ^ 32) K Y m.
Proof.
  intros HY Hm HK. unfold l2add, Umac.poly_step. cbv zeta.
  change Umac.prime64 with p64. change (2 ^ 64 - p64) with 59.
  assert (Hp : forall x, x mod p64 < p64) by (intro x; apply N.mod_lt; discriminate).
  rewrite (mul_p64_spec Y K HY HK). rewrite (N.mul_comm Y K).
  pose proof (Hp (K * Y)) as H1. remember ((K * Y) mod p64) as y eqn:Ey.
  change 0xffffffffffffffc4 with (p64 - 1).
  rewrite (add_p64_mod y (p64 - 1)) by (unfold p64, U64 in *; lia).
  pose proof (Hp (y + (p64 - 1))) as H2.
  rewrite mul_p64_spec; [|unfold p64, U64 in *; lia|exact HK].
  remember ((y + (p64 - 1)) mod p64) as y1 eqn:Ey1.
  pose proof (Hp (y1 * K)) as H3. remember ((y1 * K) mod p64) as y2 eqn:Ey2.
  rewrite !shiftr_div. change (2 ^ 32) with 4294967296. change (2 ^ 64 - 4294967296) with 18446744069414584320.
  assert (Bd : forall a b, a < p64 -> b < U64 -> add_p64 a b < U64).
  { intros a b Ha Hb. rewrite add_p64_spec by assumption. unfold p64, U64 in *.
    destruct (N.leb_spec 18446744073709551557 (a + b)); lia. }
  rewrite sel_spec; [|apply Bd; assumption|apply Bd; [assumption|apply N.mod_lt; discriminate]|unfold U64 in *; lia].
  assert (G1 : (K * Y + (p64 - 1)) mod p64 = y1).
  { rewrite Ey1, Ey. symmetry. apply N.add_mod_idemp_l. discriminate. }
  assert (S : 18446744069414584320 <= m -> ((m / 4294967296 + 1) / 4294967296 =? 1) = true).
  { clear -Hm. unfold U64 in Hm. intro L. apply N.eqb_eq.
    assert (E : m / 4294967296 = 4294967295) by lia. rewrite E. reflexivity. }
  assert (S' : m < 18446744069414584320 -> ((m / 4294967296 + 1) / 4294967296 =? 1) = false).
  { clear -Hm. intro L. apply N.eqb_neq. rewrite N.div_small; lia. }
  assert (D : 59 <= m -> (m + (U64 - 59)) mod U64 = m - 59).
  { clear -Hm. unfold U64 in *. intro L. lia. }
  destruct (N.leb_spec 18446744069414584320 m) as [L|L].
  - rewrite (S L).
    rewrite G1. rewrite (N.mul_comm K y1).
    rewrite D by lia.
    rewrite add_p64_mod; [|exact H3|clear -Hm L; unfold U64 in *; lia|clear -Hm L H3; unfold p64, U64 in *; lia].
    rewrite Ey2. apply N.add_mod_idemp_l. discriminate.
  - rewrite (S' L).
    rewrite add_p64_mod; [|exact H1|exact Hm|clear -L H1; unfold p64, U64 in *; lia].
    rewrite Ey. apply N.add_mod_idemp_l. discriminate.
Qed.

Lemma poly_step_bound k y m : Umac.poly_step (2 ^ 64 - 2 ^ 32) k y m < U64.
Proof.
  unfold Umac.poly_step. cbv zeta. change Umac.prime64 with p64.
  assert (Hp : forall x, x mod p64 < U64).
  { intro x. eapply N.lt_trans; [apply N.mod_lt; discriminate|reflexivity]. }
  destruct (_ <=? m); apply Hp.
Qed.
