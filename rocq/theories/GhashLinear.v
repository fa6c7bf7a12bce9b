(** Linearity over GF(2) of the operations used by GHASH. *)
From Verif Require Import Base BaseLemmas BufferModel ShaProofs GhashModel GhashSpec.
Local Open Scope N_scope.

Definition linear (f : N -> N) : Prop := forall a b, f (N.lxor a b) = N.lxor (f a) (f b).

Lemma linear_0 f : linear f -> f 0 = 0.
Proof. intro H. pose proof (H 0 0) as E. rewrite N.lxor_0_l in E. rewrite N.lxor_nilpotent in E. exact E. Qed.

Lemma top_bit n x : x < 2 ^ N.succ n ->
  x = N.lxor (x mod 2 ^ n) (if N.testbit x n then 2 ^ n else 0).
Proof.
  intro H. assert (P : 2 ^ n <> 0) by (apply N.pow_nonzero; lia). rewrite N.pow_succ_r' in H.
  assert (D : x / 2 ^ n < 2) by (apply N.div_lt_upper_bound; lia).
  pose proof (N.div_mod x (2 ^ n) P) as E.
  assert (T : N.testbit x n = N.odd (x / 2 ^ n)).
  { rewrite <- N.bit0_odd, <- N.shiftr_div_pow2, N.shiftr_spec by lia. now rewrite N.add_0_l. }
  rewrite T. assert (C : x / 2 ^ n = 0 \/ x / 2 ^ n = 1) by (revert D; generalize (x / 2 ^ n); clear; intros q D; lia).
  pose proof (N.mod_lt x (2 ^ n) P) as M.
  destruct C as [C|C]; rewrite C in *.
  - cbn [N.odd]. rewrite N.lxor_0_r. rewrite N.mul_0_r, N.add_0_l in E. exact E.
  - change (N.odd 1) with true. cbv iota.
    assert (Hl : N.land (x mod 2 ^ n) (1 * 2 ^ n) = 0).
    { apply N.bits_inj. intro i. rewrite N.land_spec, N.bits_0.
      destruct (N.lt_ge_cases i n) as [Hi|Hi].
      - rewrite N.mul_pow2_bits_low by exact Hi. apply andb_false_r.
      - rewrite N.mod_pow2_bits_high by exact Hi. reflexivity. }
    rewrite N.mul_1_l in Hl. rewrite <- N.add_nocarry_lxor by exact Hl. rewrite N.mul_1_r, N.add_comm in E. exact E.
Qed.

Lemma linear_ext f g n : linear f -> linear g ->
  (forall i, (i < n)%nat -> f (2 ^ N.of_nat i) = g (2 ^ N.of_nat i)) ->
  forall x, x < 2 ^ N.of_nat n -> f x = g x.
Proof.
  intros Hf Hg. induction n as [|n IH]; intros Hb x Hx.
  - assert (x = 0) as -> by (change (2 ^ N.of_nat 0) with 1 in Hx; lia). now rewrite (linear_0 f Hf), (linear_0 g Hg).
  - rewrite Nat2N.inj_succ in Hx. rewrite (top_bit (N.of_nat n) x Hx), Hf, Hg.
    assert (P : 2 ^ N.of_nat n <> 0) by (apply N.pow_nonzero; lia).
    rewrite IH; [|intros i Hi; apply Hb; lia|apply N.mod_lt; exact P].
    destruct (N.testbit x (N.of_nat n)); [now rewrite Hb by lia|now rewrite (linear_0 f Hf), (linear_0 g Hg)].
Qed.

Lemma bilinear_ext (f g : N -> N -> N) n :
  (forall b, linear (fun a => f a b)) -> (forall a, linear (f a)) ->
  (forall b, linear (fun a => g a b)) -> (forall a, linear (g a)) ->
  forallb (fun i => forallb (fun j => N.eqb (f (2 ^ N.of_nat i) (2 ^ N.of_nat j)) (g (2 ^ N.of_nat i) (2 ^ N.of_nat j)))
      (seq 0 n)) (seq 0 n) = true ->
  forall a b, a < 2 ^ N.of_nat n -> b < 2 ^ N.of_nat n -> f a b = g a b.
Proof.
  intros F1 F2 G1 G2 C a b Ha Hb.
  apply (linear_ext (fun a => f a b) (fun a => g a b) n (F1 b) (G1 b)); [|exact Ha].
  intros i Hi. apply (linear_ext (f (2 ^ N.of_nat i)) (g (2 ^ N.of_nat i)) n (F2 _) (G2 _)); [|exact Hb].
  intros j Hj. rewrite forallb_forall in C. specialize (C i ltac:(apply in_seq; lia)). cbv beta in C.
  rewrite forallb_forall in C. specialize (C j ltac:(apply in_seq; lia)). cbv beta in C. now apply N.eqb_eq.
Qed.

(** ** Closure *)
Lemma lin_id : linear (fun x => x).
Proof. intros a b. reflexivity. Qed.
Lemma lin_zero : linear (fun _ => 0).
Proof. intros a b. reflexivity. Qed.
Lemma lin_lxor f g : linear f -> linear g -> linear (fun x => N.lxor (f x) (g x)).
Proof.
  intros Hf Hg a b. cbv beta. rewrite Hf, Hg, !N.lxor_assoc. f_equal.
  rewrite <- !N.lxor_assoc. f_equal. apply N.lxor_comm.
Qed.
Lemma lin_comp f g : linear f -> linear g -> linear (fun x => f (g x)).
Proof. intros Hf Hg a b. now rewrite Hg, Hf. Qed.
Lemma lin_shiftl n : linear (fun x => N.shiftl x n).
Proof. intros a b. apply N.shiftl_lxor. Qed.
Lemma lin_shiftr n : linear (fun x => N.shiftr x n).
Proof. intros a b. apply N.shiftr_lxor. Qed.
Lemma lin_land k : linear (fun x => N.land x k).
Proof.
  intros a b. apply N.bits_inj. intro i. rewrite N.land_spec, !N.lxor_spec, !N.land_spec.
  now destruct (N.testbit a i), (N.testbit b i), (N.testbit k i).
Qed.
Lemma lin_testbit f g : linear g -> forall i, linear (fun x => if N.testbit (g x) i then f else 0).
Proof.
  intros Hg i a b. cbv beta. rewrite Hg, N.lxor_spec.
  destruct (N.testbit (g a) i), (N.testbit (g b) i); cbn [xorb];
    now rewrite ?N.lxor_nilpotent, ?N.lxor_0_l, ?N.lxor_0_r.
Qed.
Lemma lin_if (c : bool) f g : linear f -> linear g -> linear (fun x => if c then f x else g x).
Proof. intros Hf Hg. now destruct c. Qed.
Lemma lin_mul2 : linear (fun x => 2 * x).
Proof.
  intros a b. pose proof (lin_shiftl 1 a b) as E. cbv beta in E.
  rewrite !N.shiftl_mul_pow2 in E. change (2 ^ 1) with 2 in E. rewrite !(N.mul_comm 2). exact E.
Qed.
Lemma lin_div2 : linear (fun x => x / 2).
Proof.
  intros a b. pose proof (lin_shiftr 1 a b) as E. cbv beta in E.
  rewrite !N.shiftr_div_pow2 in E. exact E.
Qed.

(** ** The standard's multiplication *)
Lemma next_V_lin : linear Gcm.next_V.
Proof.
  intros a b. unfold Gcm.next_V. rewrite (lin_div2 a b : (N.lxor a b) / 2 = _).
  rewrite <- !N.bit0_odd, N.lxor_spec.
  destruct (N.testbit a 0), (N.testbit b 0); cbn [xorb]; apply N.bits_inj; intro i; rewrite ?N.lxor_spec;
    now destruct (N.testbit (a / 2) i), (N.testbit (b / 2) i), (N.testbit Gcm.R i).
Qed.

Lemma mult_steps_X : forall fuel i X1 X2 Z1 Z2 V,
  Gcm.mult_steps (N.lxor X1 X2) i fuel (N.lxor Z1 Z2) V =
  N.lxor (Gcm.mult_steps X1 i fuel Z1 V) (Gcm.mult_steps X2 i fuel Z2 V).
Proof.
  induction fuel as [|fuel IH]; intros i X1 X2 Z1 Z2 V; cbn [Gcm.mult_steps]; [reflexivity|].
  rewrite <- IH. f_equal. unfold Gcm.bit. rewrite N.lxor_spec.
  destruct (N.testbit X1 _), (N.testbit X2 _); cbn [xorb]; apply N.bits_inj; intro j; rewrite ?N.lxor_spec;
    now destruct (N.testbit Z1 j), (N.testbit Z2 j), (N.testbit V j).
Qed.

Lemma mult_steps_Y : forall fuel i X Z1 Z2 V1 V2,
  Gcm.mult_steps X i fuel (N.lxor Z1 Z2) (N.lxor V1 V2) =
  N.lxor (Gcm.mult_steps X i fuel Z1 V1) (Gcm.mult_steps X i fuel Z2 V2).
Proof.
  induction fuel as [|fuel IH]; intros i X Z1 Z2 V1 V2; cbn [Gcm.mult_steps]; [reflexivity|].
  rewrite next_V_lin, <- IH. f_equal. destruct (Gcm.bit X i); [|reflexivity].
  apply N.bits_inj; intro j; rewrite !N.lxor_spec;
    now destruct (N.testbit Z1 j), (N.testbit Z2 j), (N.testbit V1 j), (N.testbit V2 j).
Qed.

Lemma mult_lin_X Y : linear (fun X => Gcm.mult X Y).
Proof. intros a b. unfold Gcm.mult. rewrite <- mult_steps_X. reflexivity. Qed.
Lemma mult_lin_Y X : linear (Gcm.mult X).
Proof. intros a b. unfold Gcm.mult. rewrite <- mult_steps_Y. reflexivity. Qed.

(** ** Polynomials *)
Lemma poly_bits_lin n : linear (Gcm.poly_bits n).
Proof.
  induction n as [|n IH]; [apply lin_zero|]. cbn [Gcm.poly_bits].
  apply (lin_lxor (Gcm.poly_bits n)); [exact IH|]. unfold Gcm.bit. apply (lin_testbit _ (fun x => x)). apply lin_id.
Qed.
Lemma poly_lin : linear Gcm.poly.
Proof. apply poly_bits_lin. Qed.

Lemma poly_mul_lin_a n : forall b, linear (fun a => Gcm.poly_mul n a b).
Proof.
  induction n as [|n IH]; intro b; cbn [Gcm.poly_mul]; [apply lin_zero|].
  apply lin_lxor; [apply lin_if; [apply lin_id|apply lin_zero]|].
  apply (lin_comp (fun x => 2 * x)); [apply lin_mul2|]. apply IH.
Qed.
Lemma poly_mul_lin_b n : forall a, linear (Gcm.poly_mul n a).
Proof.
  induction n as [|n IH]; intro a; [apply lin_zero|]. cbn [Gcm.poly_mul].
  apply lin_lxor.
  - intros x y. rewrite <- !N.bit0_odd. apply (lin_testbit a (fun x => x) lin_id 0).
  - apply (lin_comp (fun x => 2 * x)); [apply lin_mul2|]. apply (lin_comp (Gcm.poly_mul n a)); [apply IH|apply lin_div2].
Qed.
Lemma poly_mod_lin n : linear (Gcm.poly_mod n).
Proof.
  induction n as [|n IH]; [apply lin_id|]. intros a b. cbn [Gcm.poly_mod]. rewrite <- IH. f_equal.
  rewrite N.lxor_spec.
  destruct (N.testbit a _), (N.testbit b _); cbn [xorb]; apply N.bits_inj; intro j; rewrite ?N.lxor_spec;
    now destruct (N.testbit a j), (N.testbit b j), (N.testbit (Gcm.modulus * 2 ^ N.of_nat n) j).
Qed.

(** ** The vector instructions *)
Lemma lane_lo_lin : linear lane_lo.
Proof. apply lin_land. Qed.
Lemma lane_hi_lin : linear lane_hi.
Proof. apply (lin_comp (fun x => N.land x (N.ones 64)) (fun x => N.shiftr x 64)); [apply lin_land|apply lin_shiftr]. Qed.
Lemma join_lin f g : linear f -> linear g -> linear (fun x => join (f x) (g x)).
Proof.
  intros Hf Hg. unfold join. apply lin_lxor; [|exact Hg].
  apply (lin_comp (fun x => N.shiftl x 64)); [apply lin_shiftl|exact Hf].
Qed.
Lemma slli_epi64_lin k : linear (fun v => mm_slli_epi64 v k).
Proof.
  apply join_lin.
  - apply (lin_comp (fun x => N.land x (N.ones 64))); [apply lin_land|].
    apply (lin_comp (fun x => N.shiftl x k)); [apply lin_shiftl|apply lane_hi_lin].
  - apply (lin_comp (fun x => N.land x (N.ones 64))); [apply lin_land|].
    apply (lin_comp (fun x => N.shiftl x k)); [apply lin_shiftl|apply lane_lo_lin].
Qed.
Lemma srli_epi64_lin k : linear (fun v => mm_srli_epi64 v k).
Proof.
  apply join_lin; apply (lin_comp (fun x => N.shiftr x k)); try apply lin_shiftr; [apply lane_hi_lin|apply lane_lo_lin].
Qed.
Lemma slli_si128_lin k : linear (fun v => mm_slli_si128 v k).
Proof. apply (lin_comp (fun x => N.land x (N.ones 128)) (fun x => N.shiftl x (8 * k))); [apply lin_land|apply lin_shiftl]. Qed.
Lemma srli_si128_lin k : linear (fun v => mm_srli_si128 v k).
Proof. apply (lin_comp (fun x => N.shiftr x (8 * k)) (fun x => N.land x (N.ones 128))); [apply lin_shiftr|apply lin_land]. Qed.

Lemma clmul_lin_a n b : linear (fun a => clmul n a b).
Proof.
  induction n as [|n IH]; cbn [clmul]; [apply lin_zero|].
  apply lin_lxor; [exact IH|]. apply lin_if; [apply lin_shiftl|apply lin_zero].
Qed.
Lemma clmul_lin_b n a : linear (clmul n a).
Proof.
  induction n as [|n IH]; [apply lin_zero|]. cbn [clmul].
  apply lin_lxor; [exact IH|]. apply (lin_testbit _ (fun x => x)). apply lin_id.
Qed.
Lemma clmulepi64_lin_a b imm : linear (fun a => mm_clmulepi64 a b imm).
Proof.
  unfold mm_clmulepi64. apply (lin_comp (fun x => clmul 64 x _)); [apply clmul_lin_a|].
  apply lin_if; [apply lane_hi_lin|apply lane_lo_lin].
Qed.
Lemma clmulepi64_lin_b a imm : linear (fun b => mm_clmulepi64 a b imm).
Proof.
  unfold mm_clmulepi64. apply (lin_comp (clmul 64 _)); [apply clmul_lin_b|].
  apply lin_if; [apply lane_hi_lin|apply lane_lo_lin].
Qed.
Lemma vshl_lin k : linear (fun v => vshl v k).
Proof.
  unfold vshl. apply lin_lxor; [apply slli_epi64_lin|].
  apply (lin_comp (fun v => mm_slli_si128 v 8)); [apply slli_si128_lin|apply srli_epi64_lin].
Qed.
Lemma vshr_lin k : linear (fun v => vshr v k).
Proof.
  unfold vshr. apply lin_lxor; [apply srli_epi64_lin|].
  apply (lin_comp (fun v => mm_srli_si128 v 8)); [apply srli_si128_lin|apply slli_epi64_lin].
Qed.

Local Opaque mm_clmulepi64 mm_slli_si128 mm_srli_si128 mm_slli_epi64 mm_srli_epi64 vshl vshr.

(** [gmul] in two parts: products, then folding *)
Definition fold_d (ph : N) : N :=
  N.lxor ph (N.lxor (mm_slli_epi64 (mm_slli_si128 ph 8) 62) (mm_slli_epi64 (mm_slli_si128 ph 8) 57)).
Definition fold_in (d : N) : N := N.lxor (N.lxor (N.lxor d (vshr d 1)) (vshr d 2)) (vshr d 7).
Definition fold_ph (ph : N) : N := fold_in (fold_d (vshl ph 1)).
Definition prod_z1 (v h : N) : N :=
  N.lxor (N.lxor (mm_clmulepi64 (N.lxor (mm_srli_si128 v 8) v) (N.lxor (mm_srli_si128 h 8) h) 0)
                 (mm_clmulepi64 v h 0x11)) (mm_clmulepi64 v h 0).
Definition prod_pl (v h : N) : N := N.lxor (mm_clmulepi64 v h 0x11) (mm_srli_si128 (prod_z1 v h) 8).
Definition prod_ph (v h : N) : N := N.lxor (mm_clmulepi64 v h 0) (mm_slli_si128 (prod_z1 v h) 8).

Lemma gmul_parts v h :
  gmul v h = N.lxor (N.lxor (vshl (prod_pl v h) 1) (mm_srli_si128 (mm_srli_epi64 (prod_ph v h) 63) 8))
                    (fold_ph (prod_ph v h)).
Proof.
  unfold gmul, fold_ph, fold_in. fold (prod_z1 v h). fold (prod_pl v h). fold (prod_ph v h).
  fold (fold_d (vshl (prod_ph v h) 1)). rewrite !N.lxor_assoc. reflexivity.
Qed.

Lemma fold_d_lin : linear fold_d.
Proof.
  unfold fold_d. apply (lin_lxor (fun x => x)); [apply lin_id|].
  apply lin_lxor.
  - apply (lin_comp (fun v => mm_slli_epi64 v 62)); [apply slli_epi64_lin|apply slli_si128_lin].
  - apply (lin_comp (fun v => mm_slli_epi64 v 57)); [apply slli_epi64_lin|apply slli_si128_lin].
Qed.
Lemma fold_in_lin : linear fold_in.
Proof.
  unfold fold_in. apply lin_lxor; [|apply vshr_lin]. apply lin_lxor; [|apply vshr_lin].
  apply (lin_lxor (fun x => x)); [apply lin_id|apply vshr_lin].
Qed.
Lemma fold_ph_lin : linear fold_ph.
Proof.
  unfold fold_ph. apply (lin_comp fold_in); [apply fold_in_lin|].
  apply (lin_comp fold_d); [apply fold_d_lin|apply vshl_lin].
Qed.

Lemma xor_hi_lin : linear (fun v => N.lxor (mm_srli_si128 v 8) v).
Proof. apply lin_lxor; [apply srli_si128_lin|apply lin_id]. Qed.

Lemma prod_z1_lin_v h : linear (fun v => prod_z1 v h).
Proof.
  unfold prod_z1. apply lin_lxor; [apply lin_lxor|]; try apply clmulepi64_lin_a.
  apply (lin_comp (fun a => mm_clmulepi64 a _ 0)); [apply clmulepi64_lin_a|apply xor_hi_lin].
Qed.
Lemma prod_z1_lin_h v : linear (prod_z1 v).
Proof.
  unfold prod_z1. apply lin_lxor; [apply lin_lxor|]; try apply clmulepi64_lin_b.
  apply (lin_comp (fun b => mm_clmulepi64 _ b 0)); [apply clmulepi64_lin_b|apply xor_hi_lin].
Qed.

Lemma gmul_lin_v h : linear (fun v => gmul v h).
Proof.
  assert (PL : linear (fun v => prod_pl v h)).
  { unfold prod_pl. apply lin_lxor; [apply clmulepi64_lin_a|].
    apply (lin_comp (fun v => mm_srli_si128 v 8)); [apply srli_si128_lin|apply prod_z1_lin_v]. }
  assert (PH : linear (fun v => prod_ph v h)).
  { unfold prod_ph. apply lin_lxor; [apply clmulepi64_lin_a|].
    apply (lin_comp (fun v => mm_slli_si128 v 8)); [apply slli_si128_lin|apply prod_z1_lin_v]. }
  intros a b. rewrite !gmul_parts.
  apply (lin_lxor (fun v => N.lxor (vshl (prod_pl v h) 1) (mm_srli_si128 (mm_srli_epi64 (prod_ph v h) 63) 8))
                  (fun v => fold_ph (prod_ph v h))).
  - apply lin_lxor; [apply (lin_comp (fun v => vshl v 1)); [apply vshl_lin|exact PL]|].
    apply (lin_comp (fun v => mm_srli_si128 v 8)); [apply srli_si128_lin|].
    apply (lin_comp (fun v => mm_srli_epi64 v 63)); [apply srli_epi64_lin|exact PH].
  - apply (lin_comp fold_ph); [apply fold_ph_lin|exact PH].
Qed.
Lemma gmul_lin_h v : linear (gmul v).
Proof.
  assert (PL : linear (prod_pl v)).
  { unfold prod_pl. apply lin_lxor; [apply clmulepi64_lin_b|].
    apply (lin_comp (fun v => mm_srli_si128 v 8)); [apply srli_si128_lin|apply prod_z1_lin_h]. }
  assert (PH : linear (prod_ph v)).
  { unfold prod_ph. apply lin_lxor; [apply clmulepi64_lin_b|].
    apply (lin_comp (fun v => mm_slli_si128 v 8)); [apply slli_si128_lin|apply prod_z1_lin_h]. }
  intros a b. rewrite !gmul_parts.
  apply (lin_lxor (fun h => N.lxor (vshl (prod_pl v h) 1) (mm_srli_si128 (mm_srli_epi64 (prod_ph v h) 63) 8))
                  (fun h => fold_ph (prod_ph v h))).
  - apply lin_lxor; [apply (lin_comp (fun v => vshl v 1)); [apply vshl_lin|exact PL]|].
    apply (lin_comp (fun v => mm_srli_si128 v 8)); [apply srli_si128_lin|].
    apply (lin_comp (fun v => mm_srli_epi64 v 63)); [apply srli_epi64_lin|exact PH].
  - apply (lin_comp fold_ph); [apply fold_ph_lin|exact PH].
Qed.
