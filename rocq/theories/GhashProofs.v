(** Proofs: both GHASH implementations compute GHASH of SP 800-38D. *)
From Verif Require Import Base BaseLemmas BufferModel BufferProofs MethodModel ShaProofs ShaProofs2
  GhashModel GhashSpec GhashLinear GhashBasis GhashBasis2.
Local Open Scope N_scope.

Definition block (b : bytes) : Prop := wf_bytes b /\ length b = 16%nat.

(** ** Bytes and numbers *)
Lemma lxor_split k p q A B : A < 2 ^ k -> B < 2 ^ k ->
  N.lxor (p * 2 ^ k + A) (q * 2 ^ k + B) = N.lxor p q * 2 ^ k + N.lxor A B.
Proof.
  intros HA HB. rewrite !(N.add_comm (_ * 2 ^ k)).
  rewrite <- !(lor_disjoint _ _ k) by (try apply lxor_below; assumption).
  apply N.bits_inj. intro i. rewrite N.lxor_spec, !N.lor_spec, N.lxor_spec.
  assert (Z : forall u, u < 2 ^ k -> k <= i -> N.testbit u i = false).
  { intros u Hu Hi. destruct (N.eq_dec u 0) as [->|Hz]; [apply N.bits_0|].
    apply N.bits_above_log2. apply N.lt_le_trans with k; [|exact Hi]. apply N.log2_lt_pow2; lia. }
  destruct (N.lt_ge_cases i k) as [Hi|Hi].
  - rewrite !N.mul_pow2_bits_low by exact Hi. rewrite !orb_false_r. reflexivity.
  - rewrite !N.mul_pow2_bits_high by exact Hi. rewrite N.lxor_spec, !Z by assumption. reflexivity.
Qed.

Lemma xor_bytes_val a : forall b, wf_bytes a -> wf_bytes b -> length a = length b ->
  be_val (xor_bytes a b) = N.lxor (be_val a) (be_val b) /\ wf_bytes (xor_bytes a b) /\
  length (xor_bytes a b) = length a.
Proof.
  induction a as [|x a IH]; intros [|y b] Ha Hb Hl; cbn [length] in Hl; try discriminate.
  - split; [reflexivity|]. split; [apply wf_nil|reflexivity].
  - apply wf_cons in Ha. destruct Ha as [Hx Ha]. apply wf_cons in Hb. destruct Hb as [Hy Hb].
    injection Hl as Hl. destruct (IH b Ha Hb Hl) as [E1 [E2 E3]].
    cbn [xor_bytes be_val]. split; [|split].
    + rewrite E1, E3, Hl. symmetry. apply lxor_split.
      * rewrite <- Hl. now apply be_val_bound.
      * now apply be_val_bound.
    + apply wf_cons. split; [|exact E2]. apply (lxor_below x y 8); assumption.
    + cbn [length]. now rewrite E3.
Qed.

Lemma xor_block a b : block a -> block b ->
  be_val (xor_bytes a b) = N.lxor (be_val a) (be_val b) /\ block (xor_bytes a b).
Proof.
  intros [Ha La] [Hb Lb]. destruct (xor_bytes_val a b Ha Hb ltac:(congruence)) as [E1 [E2 E3]].
  split; [exact E1|]. split; [exact E2|]. rewrite E3. exact La.
Qed.

Lemma block_bound b : block b -> be_val b < 2 ^ 128.
Proof. intros [H L]. pose proof (be_val_bound b H) as B. rewrite L in B. exact B. Qed.

Lemma zero_block_ok : block zero_block.
Proof. split; [apply wf_bytesb_spec|]; reflexivity. Qed.
Lemma r_block_ok : block r_block /\ be_val r_block = Gcm.R.
Proof. split; [split; [apply wf_bytesb_spec|]|]; reflexivity. Qed.

Lemma shr_loop_spec n : 0 < n < 8 -> forall b c0, wf_bytes b -> c0 < 2 ^ n ->
  be_val (fst (shr_loop n (c0 * 2 ^ (8 - n)) b)) = (c0 * 2 ^ (8 * N.of_nat (length b)) + be_val b) / 2 ^ n /\
  wf_bytes (fst (shr_loop n (c0 * 2 ^ (8 - n)) b)) /\
  length (fst (shr_loop n (c0 * 2 ^ (8 - n)) b)) = length b /\
  snd (shr_loop n (c0 * 2 ^ (8 - n)) b) =
    ((c0 * 2 ^ (8 * N.of_nat (length b)) + be_val b) mod 2 ^ n) * 2 ^ (8 - n).
Proof.
  intros Hn. assert (P : 2 ^ n <> 0) by (apply N.pow_nonzero; lia).
  assert (PP : 256 = 2 ^ n * 2 ^ (8 - n)) by (rewrite <- N.pow_add_r; replace (n + (8 - n)) with 8 by lia; reflexivity).
  induction b as [|x b IH]; intros c0 Hb Hc.
  - cbn [shr_loop fst snd be_val length]. change (8 * N.of_nat 0) with 0. rewrite N.pow_0_r, N.mul_1_r, N.add_0_r.
    rewrite N.div_small, N.mod_small by exact Hc. split; [reflexivity|]. split; [apply wf_nil|]. split; reflexivity.
  - apply wf_cons in Hb. destruct Hb as [Hx Hb]. unfold is_byte in Hx.
    assert (E2 : N.shiftl x (8 - n) mod 256 = (x mod 2 ^ n) * 2 ^ (8 - n)).
    { rewrite N.shiftl_mul_pow2, PP. apply N.mul_mod_distr_r; [exact P|apply N.pow_nonzero; lia]. }
    cbn [shr_loop]. rewrite E2.
    pose proof (N.mod_lt x (2 ^ n) P) as Hm.
    destruct (IH (x mod 2 ^ n) Hb Hm) as [I1 [I2 [I3 I4]]].
    destruct (shr_loop n (x mod 2 ^ n * 2 ^ (8 - n)) b) as [o c'] eqn:ES. cbn [fst snd] in *.
    assert (EL : N.lor (N.shiftr x n) (c0 * 2 ^ (8 - n)) = x / 2 ^ n + c0 * 2 ^ (8 - n)).
    { rewrite N.shiftr_div_pow2. apply lor_disjoint. apply N.div_lt_upper_bound; [exact P|]. rewrite <- PP. exact Hx. }
    pose proof (N.div_mod x (2 ^ n) P) as DM.
    remember (x / 2 ^ n) as q eqn:Eq. remember (x mod 2 ^ n) as r eqn:Er.
    remember (2 ^ (8 * N.of_nat (length b))) as B eqn:EB.
    assert (ES8 : 2 ^ (8 * N.of_nat (length (x :: b))) = 256 * B).
    { cbn [length]. rewrite EB. apply pow8_S. }
    assert (EV : c0 * 2 ^ (8 * N.of_nat (length (x :: b))) + be_val (x :: b) =
                 (q + c0 * 2 ^ (8 - n)) * B * 2 ^ n + (r * B + be_val b)).
    { rewrite ES8. cbn [be_val]. rewrite <- EB. rewrite DM, PP. ring. }
    rewrite EV. split; [|split; [|split]].
    + cbn [be_val]. rewrite EL, I1, I3, <- EB. rewrite N.div_add_l by exact P. reflexivity.
    + apply wf_cons. split; [|exact I2]. unfold is_byte. rewrite EL.
      assert (Q1 : q < 2 ^ (8 - n)) by (rewrite Eq; apply N.div_lt_upper_bound; [exact P|rewrite <- PP; exact Hx]).
      assert (Q2 : (c0 + 1) * 2 ^ (8 - n) <= 2 ^ n * 2 ^ (8 - n)) by (apply N.mul_le_mono_r; lia).
      rewrite PP. lia.
    + cbn [length]. now rewrite I3.
    + rewrite I4. f_equal. rewrite (N.add_comm ((q + c0 * 2 ^ (8 - n)) * B * 2 ^ n)), N.mod_add by exact P. reflexivity.
Qed.

Lemma shr_spec n b : 0 < n < 8 -> block b ->
  block (fst (shr n b)) /\ be_val (fst (shr n b)) = be_val b / 2 ^ n /\ snd (shr n b) = be_val b mod 2 ^ n.
Proof.
  intros Hn [Hb Lb]. unfold shr.
  pose proof (shr_loop_spec n Hn b 0 Hb ltac:(apply N.neq_0_lt_0, N.pow_nonzero; lia)) as S.
  rewrite N.mul_0_l, N.mul_0_l, N.add_0_l in S. destruct S as [S1 [S2 [S3 S4]]].
  destruct (shr_loop n 0 b) as [o c]. cbn [fst snd] in *.
  split; [split; [exact S2|rewrite S3; exact Lb]|]. split; [exact S1|].
  rewrite S4, N.shiftr_div_pow2. apply N.div_mul. apply N.pow_nonzero; lia.
Qed.

(** ** The tables *)
Lemma next_Hbase_spec h : block h -> block (next_Hbase h) /\ be_val (next_Hbase h) = Gcm.next_V (be_val h).
Proof.
  intro Hh. destruct (shr_spec 1 h ltac:(lia) Hh) as [S1 [S2 S3]]. unfold next_Hbase, Gcm.next_V.
  destruct (shr 1 h) as [s c]. cbn [fst snd] in *. change (2 ^ 1) with 2 in *.
  rewrite <- N.bit0_odd, N.bit0_eqb, <- S3.
  assert (C : c = 0 \/ c = 1) by (rewrite S3; clear; generalize (be_val h); intro x; lia).
  destruct C as [C|C]; rewrite C; cbn [N.eqb Pos.eqb].
  - split; [exact S1|exact S2].
  - destruct r_block_ok as [R1 R2]. destruct (xor_block s r_block S1 R1) as [E1 E2].
    split; [exact E2|]. rewrite E1, S2, R2. reflexivity.
Qed.

Fixpoint iter_V (n : nat) (V : N) : N := match n with O => V | S n => iter_V n (Gcm.next_V V) end.
Lemma iter_V_lin n : linear (iter_V n).
Proof. induction n as [|n IH]; intros a b; cbn [iter_V]; [reflexivity|]. now rewrite next_V_lin, IH. Qed.
Lemma iter_V_S n V : iter_V (S n) V = Gcm.next_V (iter_V n V).
Proof. revert V; induction n as [|n IH]; intro V; [reflexivity|]. cbn [iter_V] in *. now rewrite IH. Qed.
Lemma iter_V_add a b V : iter_V (a + b) V = iter_V a (iter_V b V).
Proof.
  revert V; induction b as [|b IH]; intro V; [now rewrite Nat.add_0_r|].
  rewrite Nat.add_succ_r. cbn [iter_V]. apply IH.
Qed.

Lemma next_V_bound V : V < 2 ^ 128 -> Gcm.next_V V < 2 ^ 128.
Proof.
  intro H. unfold Gcm.next_V. assert (D : V / 2 < 2 ^ 128) by lia.
  destruct (N.odd V); [|exact D]. apply lxor_below; [exact D|]. reflexivity.
Qed.

(** the combination of four consecutive powers selected by a nibble *)
Definition sel4 (b0 b1 b2 b3 : bool) (V : N) : N :=
  N.lxor (N.lxor (N.lxor (if b0 then V else 0) (if b1 then iter_V 1 V else 0))
                 (if b2 then iter_V 2 V else 0)) (if b3 then iter_V 3 V else 0).
Definition comb (V j : N) : N := sel4 (N.testbit j 3) (N.testbit j 2) (N.testbit j 1) (N.testbit j 0) V.

Lemma sel4_iter b0 b1 b2 b3 n V : sel4 b0 b1 b2 b3 (iter_V n V) = iter_V n (sel4 b0 b1 b2 b3 V).
Proof.
  unfold sel4. rewrite !iter_V_lin. rewrite <- !iter_V_add.
  pose proof (linear_0 _ (iter_V_lin n)) as Z.
  assert (C : forall k, iter_V (k + n) V = iter_V n (iter_V k V)) by (intro k; rewrite Nat.add_comm; apply iter_V_add).
  rewrite !C. destruct b0, b1, b2, b3; rewrite ?Z; reflexivity.
Qed.

Lemma nibble_cases j : j < 16 -> In j [0;1;2;3;4;5;6;7;8;9;10;11;12;13;14;15].
Proof. intro H. cbn [In]. lia. Qed.

Lemma combine_bases_spec h j : block h -> j < 16 ->
  block (combine_bases (bases next_Hbase h) j) /\
  be_val (combine_bases (bases next_Hbase h) j) = comb (be_val h) j.
Proof.
  intros Hh Hj.
  destruct (next_Hbase_spec h Hh) as [B1 V1].
  destruct (next_Hbase_spec _ B1) as [B2 V2].
  destruct (next_Hbase_spec _ B2) as [B3 V3].
  unfold bases. remember (next_Hbase h) as h1 eqn:E1. remember (next_Hbase h1) as h2 eqn:E2.
  remember (next_Hbase h2) as h3 eqn:E3.
  assert (I1 : be_val h1 = iter_V 1 (be_val h)) by (rewrite V1; reflexivity).
  assert (I2 : be_val h2 = iter_V 2 (be_val h)) by (rewrite V2, V1; reflexivity).
  assert (I3 : be_val h3 = iter_V 3 (be_val h)) by (rewrite V3, V2, V1; reflexivity).
  unfold comb, sel4. rewrite <- I1, <- I2, <- I3. clear E1 E2 E3 I1 I2 I3 V1 V2 V3.
  assert (X : forall (c : bool) acc b, block acc -> block b ->
            block (if c then acc else xor_bytes acc b) /\
            be_val (if c then acc else xor_bytes acc b) = N.lxor (be_val acc) (if c then 0 else be_val b)).
  { intros c acc b Ha Hb. destruct c; [now rewrite N.lxor_0_r|]. destruct (xor_block acc b Ha Hb). auto. }
  unfold combine_bases. cbn [seq fold_left nth].
  match goal with |- context [if N.eqb (N.land j (N.shiftr 8 (N.of_nat 0))) 0 then ?a else ?b] =>
    destruct (X (N.eqb (N.land j (N.shiftr 8 (N.of_nat 0))) 0) zero_block h zero_block_ok Hh) as [Y0 Z0] end.
  destruct (X (N.eqb (N.land j (N.shiftr 8 (N.of_nat 1))) 0) _ h1 Y0 B1) as [Y1 Z1].
  destruct (X (N.eqb (N.land j (N.shiftr 8 (N.of_nat 2))) 0) _ h2 Y1 B2) as [Y2 Z2].
  destruct (X (N.eqb (N.land j (N.shiftr 8 (N.of_nat 3))) 0) _ h3 Y2 B3) as [Y3 Z3].
  split; [exact Y3|]. rewrite Z3, Z2, Z1, Z0. change (be_val zero_block) with 0. rewrite N.lxor_0_l.
  apply nibble_cases in Hj. cbn [In] in Hj.
  repeat destruct Hj as [<-|Hj]; [..|destruct Hj]; reflexivity.
Qed.

Definition R_table : list bytes := Eval vm_compute in row0 (bases next_Rbase r_block).
Lemma R_table_eq : row0 (bases next_Rbase r_block) = R_table.
Proof. vm_compute. reflexivity. Qed.

Lemma R_entry c : c < 16 ->
  block (nth (N.to_nat c) R_table zero_block) /\ be_val (nth (N.to_nat c) R_table zero_block) = iter_V 4 c.
Proof.
  intro Hc. apply nibble_cases in Hc. cbn [In] in Hc.
  repeat destruct Hc as [<-|Hc]; [..|destruct Hc]; (split; [split; [apply wf_bytesb_spec|]|]; vm_compute; reflexivity).
Qed.

Lemma next_V_double q : Gcm.next_V (2 * q) = q.
Proof.
  unfold Gcm.next_V. rewrite <- N.bit0_odd, N.testbit_even_0. rewrite N.mul_comm. now apply N.div_mul.
Qed.

Lemma iter_V_4 v : iter_V 4 v = N.lxor (v / 16) (iter_V 4 (v mod 16)).
Proof.
  assert (E : v = N.lxor (16 * (v / 16)) (v mod 16)).
  { assert (Hm : v mod 16 < 2 ^ 4) by (apply N.mod_lt; discriminate).
    pose proof (lor_disjoint (v mod 16) (v / 16) 4 Hm) as L. change (2 ^ 4) with 16 in L.
    assert (Hl : N.land (v mod 16) (v / 16 * 16) = 0).
    { change 16 with (2 ^ 4). apply N.bits_inj. intro i. rewrite N.land_spec, N.bits_0.
      destruct (N.lt_ge_cases i 4) as [Hi|Hi].
      - rewrite N.mul_pow2_bits_low by exact Hi. apply andb_false_r.
      - rewrite N.mod_pow2_bits_high by exact Hi. reflexivity. }
    rewrite (N.mul_comm 16), N.lxor_comm, N.lxor_lor by exact Hl. rewrite L. lia. }
  rewrite E at 1. rewrite iter_V_lin. f_equal.
  cbn [iter_V]. replace (16 * (v / 16)) with (2 * (2 * (2 * (2 * (v / 16))))) by lia. now rewrite !next_V_double.
Qed.

Lemma next_row_spec row V :
  length row = 16%nat ->
  (forall j, j < 16 -> block (nth (N.to_nat j) row zero_block) /\ be_val (nth (N.to_nat j) row zero_block) = comb V j) ->
  length (next_row R_table row) = 16%nat /\
  (forall j, j < 16 -> block (nth (N.to_nat j) (next_row R_table row) zero_block) /\
                       be_val (nth (N.to_nat j) (next_row R_table row) zero_block) = comb (iter_V 4 V) j).
Proof.
  intros Lr Hr. unfold next_row. split; [now rewrite map_length|]. intros j Hj.
  destruct (Hr j Hj) as [Hb Hv].
  match goal with |- context [map ?f row] => remember f as F eqn:EF end.
  assert (EN : nth (N.to_nat j) (map F row) zero_block = F (nth (N.to_nat j) row zero_block)).
  { rewrite (nth_indep (map F row) zero_block (F zero_block)) by (rewrite map_length; lia). apply map_nth. }
  rewrite EN, EF. remember (nth (N.to_nat j) row zero_block) as b eqn:Eb.
  destruct (shr_spec 4 b ltac:(lia) Hb) as [S1 [S2 S3]]. destruct (shr 4 b) as [s c]. cbn [fst snd] in *.
  change (2 ^ 4) with 16 in *.
  assert (Hc : c < 16) by (rewrite S3; apply N.mod_lt; discriminate).
  destruct (R_entry c Hc) as [R1 R2]. destruct (xor_block s _ S1 R1) as [X1 X2].
  split; [exact X2|]. rewrite X1, S2, R2, S3, <- iter_V_4, Hv.
  unfold comb. now rewrite sel4_iter.
Qed.

Lemma rows_spec n : forall row V,
  length row = 16%nat ->
  (forall j, j < 16 -> block (nth (N.to_nat j) row zero_block) /\ be_val (nth (N.to_nat j) row zero_block) = comb V j) ->
  forall i j, (i < n)%nat -> j < 16 ->
    block (entry (rows n R_table row) i j) /\ be_val (entry (rows n R_table row) i j) = comb (iter_V (4 * i) V) j.
Proof.
  induction n as [|n IH]; intros row V Lr Hr i j Hi Hj; [lia|].
  unfold entry. cbn [rows]. destruct i as [|i]; cbn [nth].
  - apply Hr. exact Hj.
  - destruct (next_row_spec row V Lr Hr) as [L' H'].
    destruct (IH _ (iter_V 4 V) L' H' i j ltac:(lia) Hj) as [A B]. unfold entry in A, B.
    split; [exact A|]. rewrite B. f_equal. rewrite <- iter_V_add. f_equal. lia.
Qed.

Lemma table_spec key i j : block key -> (i < 32)%nat -> j < 16 ->
  block (entry (ghash_init key) i j) /\ be_val (entry (ghash_init key) i j) = comb (iter_V (4 * i) (be_val key)) j.
Proof.
  intros Hk Hi Hj. unfold ghash_init. rewrite R_table_eq. apply rows_spec; [reflexivity| |exact Hi|exact Hj].
  intros c Hc. unfold row0.
  assert (EN : nth (N.to_nat c) (map (fun i => combine_bases (bases next_Hbase key) (N.of_nat i)) (seq 0 16)) zero_block
               = combine_bases (bases next_Hbase key) c).
  { rewrite (nth_indep _ zero_block (combine_bases (bases next_Hbase key) (N.of_nat 0))) by (rewrite map_length, seq_length; lia).
    rewrite (map_nth (fun i => combine_bases (bases next_Hbase key) (N.of_nat i))), seq_nth by lia.
    cbn [Nat.add]. now rewrite N2Nat.id. }
  rewrite EN. now apply combine_bases_spec.
Qed.

(** ** Multiplication by table lookup *)
Lemma mult_steps_8 X i fuel Z V :
  Gcm.mult_steps X i (8 + fuel) Z V =
  Gcm.mult_steps X (8 + i) fuel
    (N.lxor (N.lxor Z (sel4 (Gcm.bit X i) (Gcm.bit X (1 + i)) (Gcm.bit X (2 + i)) (Gcm.bit X (3 + i)) V))
            (sel4 (Gcm.bit X (4 + i)) (Gcm.bit X (5 + i)) (Gcm.bit X (6 + i)) (Gcm.bit X (7 + i)) (iter_V 4 V)))
    (iter_V 8 V).
Proof.
  assert (C : forall (c : bool) z v, (if c then N.lxor z v else z) = N.lxor z (if c then v else 0)).
  { intros c z v. destruct c; [reflexivity|now rewrite N.lxor_0_r]. }
  cbn [Nat.add Gcm.mult_steps]. rewrite !C. unfold sel4. cbn [iter_V]. rewrite !N.lxor_assoc. reflexivity.
Qed.

Lemma testbit_be_val b s q : wf_bytes s -> is_byte b ->
  (q < 8 -> N.testbit (be_val (b :: s)) (8 * N.of_nat (length s) + q) = N.testbit b q) /\
  (q < 8 * N.of_nat (length s) -> N.testbit (be_val (b :: s)) q = N.testbit (be_val s) q).
Proof.
  intros Hs Hb. cbn [be_val]. pose proof (be_val_bound s Hs) as B.
  rewrite N.add_comm, <- (lor_disjoint _ _ _ B). rewrite !N.lor_spec. split; intro Hq.
  - rewrite N.mul_pow2_bits_high by lia.
    assert (Z : N.testbit (be_val s) (8 * N.of_nat (length s) + q) = false).
    { destruct (N.eq_dec (be_val s) 0) as [->|Hz]; [apply N.bits_0|]. apply N.bits_above_log2.
      apply N.lt_le_trans with (8 * N.of_nat (length s)); [|lia]. apply N.log2_lt_pow2; [lia|exact B]. }
    rewrite Z. cbn [orb]. f_equal. lia.
  - rewrite N.mul_pow2_bits_low by exact Hq. apply orb_false_r.
Qed.

Lemma mulH_loop_spec key : block key -> forall x i X out,
  wf_bytes x -> (i + length x = 16)%nat -> block out ->
  (forall p, p < 8 * N.of_nat (length x) -> N.testbit X p = N.testbit (be_val x) p) ->
  block (mulH_loop i x (ghash_init key) out) /\
  be_val (mulH_loop i x (ghash_init key) out) =
    Gcm.mult_steps X (8 * i) (8 * length x) (be_val out) (iter_V (8 * i) (be_val key)).
Proof.
  intro Hk. induction x as [|b x IH]; intros i X out Hx Hi Ho HX.
  - cbn [mulH_loop length]. rewrite Nat.mul_0_r. cbn [Gcm.mult_steps]. split; [exact Ho|reflexivity].
  - apply wf_cons in Hx. destruct Hx as [Hb Hx]. cbn [length] in Hi.
    assert (N1 : N.shiftr b 4 < 16).
    { rewrite N.shiftr_div_pow2. unfold is_byte in Hb. change (2 ^ 4) with 16. lia. }
    assert (N2 : N.land b 15 < 16).
    { change 15 with (N.ones 4). rewrite N.land_ones. apply N.mod_lt. discriminate. }
    destruct (table_spec key (2 * i) (N.shiftr b 4) Hk ltac:(lia) N1) as [T1 V1].
    destruct (table_spec key (2 * i + 1) (N.land b 15) Hk ltac:(lia) N2) as [T2 V2].
    destruct (xor_block out _ Ho T1) as [X1 B1]. destruct (xor_block _ _ B1 T2) as [X2 B2].
    cbn [mulH_loop length]. cbv zeta.
    assert (HX' : forall p, p < 8 * N.of_nat (length x) -> N.testbit X p = N.testbit (be_val x) p).
    { intros p Hp. rewrite HX by (cbn [length]; lia). now apply (testbit_be_val b x p Hx Hb). }
    destruct (IH (S i) X _ Hx ltac:(lia) B2 HX') as [I1 I2].
    split; [exact I1|]. rewrite I2, X2, X1, V1, V2.
    replace (8 * S (length x))%nat with (8 + 8 * length x)%nat by lia. rewrite mult_steps_8.
    replace (8 * S i)%nat with (8 + 8 * i)%nat by lia. rewrite (iter_V_add 8 (8 * i)).
    replace (4 * (2 * i))%nat with (8 * i)%nat by lia. replace (4 * (2 * i + 1))%nat with (4 + 8 * i)%nat by lia.
    rewrite (iter_V_add 4 (8 * i)).
    assert (BX : forall q, (q < 8)%nat -> Gcm.bit X (q + 8 * i) = N.testbit b (7 - N.of_nat q)).
    { intros q Hq. unfold Gcm.bit.
      replace (127 - N.of_nat (q + 8 * i)) with (8 * N.of_nat (length x) + (7 - N.of_nat q)) by lia.
      rewrite HX by (cbn [length]; lia). apply (testbit_be_val b x (7 - N.of_nat q) Hx Hb). lia. }
    f_equal. unfold comb. change (8 * i)%nat with (0 + 8 * i)%nat at 3. rewrite !BX by lia.
    rewrite !N.shiftr_spec by lia. change 15 with (N.ones 4). rewrite !N.land_spec, !N.ones_spec_low by lia.
    rewrite !andb_true_r. reflexivity.
Qed.

Lemma mulH_spec key x : block key -> block x ->
  block (mulH (ghash_init key) x) /\ be_val (mulH (ghash_init key) x) = Gcm.mult (be_val x) (be_val key).
Proof.
  intros Hk [Hx Lx]. unfold mulH.
  destruct (mulH_loop_spec key Hk x 0 (be_val x) zero_block Hx ltac:(lia) zero_block_ok ltac:(reflexivity)) as [A B].
  split; [exact A|]. rewrite B, Lx. change (8 * 0)%nat with 0%nat. change (8 * 16)%nat with 128%nat.
  unfold Gcm.mult. f_equal.
Qed.

(** ** Digest *)
Lemma mult_steps_bound : forall fuel X i Z V, Z < 2 ^ 128 -> V < 2 ^ 128 -> Gcm.mult_steps X i fuel Z V < 2 ^ 128.
Proof.
  induction fuel as [|fuel IH]; intros X i Z V HZ HV; cbn [Gcm.mult_steps]; [exact HZ|].
  apply IH; [|now apply next_V_bound]. destruct (Gcm.bit X i); [now apply lxor_below|exact HZ].
Qed.
Lemma mult_bound X Y : Y < 2 ^ 128 -> Gcm.mult X Y < 2 ^ 128.
Proof. intro H. unfold Gcm.mult. apply (mult_steps_bound 128); [reflexivity|exact H]. Qed.

Lemma block_of_read mem i b : wf_bytes mem -> read mem (16 * i) 16 = Ok b -> block b.
Proof.
  intros Hm Hr. unfold read in Hr. destruct (Nat.leb_spec (16 * i + 16) (length mem)); [|discriminate].
  injection Hr as <-. split; [now apply wf_slice|now apply length_slice].
Qed.

Local Opaque Gcm.mult.

Local Notation absorb H := (fun Y X : N => Gcm.mult (N.lxor Y X) H).

Lemma ghash_loop_spec t (mul : N -> N) mem :
  (forall x, block x -> block (mulH t x) /\ be_val (mulH t x) = mul (be_val x)) ->
  wf_bytes mem -> forall n i out,
  block out -> (16 * (i + n) <= length mem)%nat ->
  exists o, ghash_loop n i t mem out = Ok o /\ block o /\
    be_val o = fold_left (fun Y X => mul (N.lxor Y X)) (Gcm.split_blocks n (skipn (16 * i) mem)) (be_val out).
Proof.
  intros Hmul Hm. induction n as [|n IH]; intros i out Ho Hl; cbn [ghash_loop Gcm.split_blocks fold_left].
  - exists out. auto.
  - assert (Hr : read mem (16 * i) 16 = Ok (slice mem (16 * i) 16)) by (apply read_ok; lia).
    pose proof (block_of_read mem i _ Hm Hr) as Hb. rewrite Hr. cbn [bind].
    destruct (xor_block out _ Ho Hb) as [X1 B1]. destruct (Hmul _ B1) as [B2 V2].
    destruct (IH (S i) _ B2 ltac:(lia)) as [o [E [Bo Vo]]]. exists o. split; [exact E|]. split; [exact Bo|].
    rewrite Vo, V2, X1, <- skipn_add. replace (16 * i + 16)%nat with (16 * S i)%nat by lia.
    unfold slice. reflexivity.
Qed.

Lemma make_size_spec len shift : N.of_nat len < 2 ^ 29 ->
  exists b, make_size len shift = Ok b /\ block b /\
    be_val b = if shift then Gcm.length_block len 0 else Gcm.length_block 0 len.
Proof.
  intro H. unfold make_size. destruct (N.leb_spec (2 ^ 29) (N.of_nat len)) as [B|_]; [lia|].
  rewrite N.shiftl_mul_pow2. change (2 ^ 3) with 8. rewrite N.mod_small by lia.
  eexists. split; [reflexivity|].
  destruct shift; (split; [split|]).
  - apply wf_app. split; [apply wf_bytesb_spec; reflexivity|]. apply wf_app.
    split; [apply be_bytes_wf|apply wf_bytesb_spec; reflexivity].
  - rewrite !app_length, be_bytes_length, !repeat_length. reflexivity.
  - rewrite !be_val_app, be_val_be_bytes, app_length, be_bytes_length, repeat_length.
    change (be_val (repeat 0 4)) with 0. change (be_val (repeat 0 8)) with 0.
    change (8 * N.of_nat 4) with 32. change (8 * N.of_nat 8) with 64. rewrite N.mod_small by lia.
    unfold Gcm.length_block. lia.
  - apply wf_app. split; [apply wf_bytesb_spec; reflexivity|apply be_bytes_wf].
  - rewrite !app_length, be_bytes_length, !repeat_length. reflexivity.
  - rewrite !be_val_app, be_val_be_bytes, be_bytes_length.
    change (be_val (repeat 0 12)) with 0. change (8 * N.of_nat 4) with 32. rewrite N.mod_small by lia.
    unfold Gcm.length_block. lia.
Qed.

Definition padded (m mem : bytes) : Prop := exists post, mem = Gcm.pad16 m ++ post /\ wf_bytes mem.

Lemma length_pad16 m : length (Gcm.pad16 m) = (16 * ((length m + 15) / 16))%nat.
Proof. unfold Gcm.pad16. rewrite app_length, repeat_length. lia. Qed.

Lemma split_blocks_app n : forall b post, (16 * n <= length b)%nat -> Gcm.split_blocks n (b ++ post) = Gcm.split_blocks n b.
Proof.
  induction n as [|n IH]; intros b post H; cbn [Gcm.split_blocks]; [reflexivity|].
  rewrite firstn_app, skipn_app. replace (16 - length b)%nat with 0%nat by lia. rewrite firstn_O, skipn_O.
  rewrite app_nil_r, IH; [reflexivity|]. rewrite skipn_length. lia.
Qed.

Lemma ghash_digest_spec key shift m mem :
  block key -> padded m mem -> N.of_nat (length m) < 2 ^ 29 ->
  ghash_digest (ghash_init key) shift mem (length m) = Ok (be_bytes 16 (Gcm.ghash (be_val key) (Gcm.input shift m))).
Proof.
  intros Hk [post [-> Hm]] Hl. unfold ghash_digest.
  pose proof (length_pad16 m) as LP.
  destruct (ghash_loop_spec (ghash_init key) (fun X => Gcm.mult X (be_val key)) _ (fun x Hx => mulH_spec key x Hk Hx) Hm ((length m + 15) / 16) 0 zero_block zero_block_ok) as [o [E [Bo Vo]]].
  { rewrite app_length. lia. }
  rewrite E. cbn [bind].
  destruct (make_size_spec (length m) shift Hl) as [sz [ES [Bs Vs]]]. rewrite ES. cbn [bind].
  destruct (xor_block o sz Bo Bs) as [X1 B1]. destruct (mulH_spec key _ Hk B1) as [B2 V2].
  f_equal. rewrite <- (be_bytes_be_val _ (proj1 B2)), (proj2 B2). f_equal.
  rewrite V2, X1, Vo, Vs. change (16 * 0)%nat with 0%nat. rewrite skipn_O, split_blocks_app by lia.
  unfold Gcm.ghash, Gcm.input, Gcm.message_blocks. rewrite fold_left_app. cbn [fold_left].
  rewrite LP. replace (16 * ((length m + 15) / 16) / 16)%nat with ((length m + 15) / 16)%nat by lia.
  destruct shift; reflexivity.
Qed.

Lemma digest_too_long key shift m mem :
  block key -> padded m mem -> 2 ^ 29 <= N.of_nat (length m) ->
  ghash_digest (ghash_init key) shift mem (length m) = Bug.
Proof.
  intros Hk [post [-> Hm]] Hl. unfold ghash_digest.
  destruct (ghash_loop_spec (ghash_init key) (fun X => Gcm.mult X (be_val key)) _ (fun x Hx => mulH_spec key x Hk Hx) Hm ((length m + 15) / 16) 0 zero_block zero_block_ok) as [o [E _]].
  { rewrite app_length, length_pad16. lia. }
  rewrite E. cbn [bind]. unfold make_size. destruct (N.leb_spec (2 ^ 29) (N.of_nat (length m))); [reflexivity|lia].
Qed.

(** ** The vector implementation *)
Lemma le_val_rev l : le_val (rev l) = be_val l.
Proof.
  assert (A : forall l x, le_val (l ++ [x]) = le_val l + 2 ^ (8 * N.of_nat (length l)) * x).
  { clear. induction l as [|y l IH]; intro x; cbn [app le_val length].
    - change (8 * N.of_nat 0) with 0. rewrite N.pow_0_r. lia.
    - rewrite IH, pow8_S. lia. }
  induction l as [|x l IH]; cbn [rev be_val]; [reflexivity|].
  rewrite A, IH, rev_length. lia.
Qed.

Lemma byteswap_val b : block b -> byteswap (le_val b) = be_val b.
Proof.
  intros [Hb Lb]. unfold byteswap, mm_shuffle_epi8.
  pose proof (le_bytes_le_val b Hb) as E. rewrite Lb in E. rewrite E. rewrite <- le_val_rev. f_equal.
  do 16 (destruct b as [|? b]; [discriminate|]). destruct b; [|discriminate]. reflexivity.
Qed.

Lemma byteswap_back v : v < 2 ^ 128 -> le_bytes 16 (byteswap v) = be_bytes 16 v.
Proof.
  intro Hv. unfold byteswap, mm_shuffle_epi8.
  assert (L : length (le_bytes 16 v) = 16%nat) by apply le_bytes_length.
  assert (W : wf_bytes (le_bytes 16 v)) by apply le_bytes_wf.
  assert (V : le_val (le_bytes 16 v) = v) by (rewrite le_val_le_bytes; now rewrite N.mod_small).
  remember (le_bytes 16 v) as b eqn:Eb. clear Eb.
  match goal with |- le_bytes 16 (le_val ?x) = _ => assert (E : x = rev b) end.
  { do 16 (destruct b as [|? b]; [discriminate|]). destruct b; [|discriminate]. reflexivity. }
  rewrite E.
  assert (WR : wf_bytes (rev b)) by (apply Forall_rev; exact W).
  assert (LR : length (rev b) = 16%nat) by (rewrite rev_length; exact L).
  pose proof (le_bytes_le_val _ WR) as E1. rewrite LR in E1. rewrite E1.
  pose proof (be_bytes_be_val _ WR) as E2. rewrite LR in E2. rewrite <- E2. f_equal.
  rewrite <- le_val_rev, rev_involutive. exact V.
Qed.

Lemma gmul_mult v h : v < 2 ^ 128 -> h < 2 ^ 128 -> gmul v h = Gcm.mult v h.
Proof.
  apply (bilinear_ext gmul Gcm.mult 128); [exact gmul_lin_v|exact gmul_lin_h|exact mult_lin_X|exact mult_lin_Y|].
  exact gmul_basis.
Qed.

Lemma pclmul_loop_generic h (mul : N -> N) mem :
  (forall x, x < 2 ^ 128 -> gmul x h = mul x) -> (forall x, mul x < 2 ^ 128) ->
  wf_bytes mem -> forall n i v,
  v < 2 ^ 128 -> (16 * (i + n) <= length mem)%nat ->
  pclmul_loop n i h mem v =
    Ok (fold_left (fun Y X => mul (N.lxor Y X)) (Gcm.split_blocks n (skipn (16 * i) mem)) v) /\
  fold_left (fun Y X => mul (N.lxor Y X)) (Gcm.split_blocks n (skipn (16 * i) mem)) v < 2 ^ 128.
Proof.
  intros Hg Hb Hm. induction n as [|n IH]; intros i v Hv Hl; cbn [pclmul_loop Gcm.split_blocks fold_left].
  - auto.
  - assert (Hr : read mem (16 * i) 16 = Ok (slice mem (16 * i) 16)) by (apply read_ok; lia).
    pose proof (block_of_read mem i _ Hm Hr) as Hbl. rewrite Hr. cbn [bind]. rewrite byteswap_val by exact Hbl.
    pose proof (block_bound _ Hbl) as Bb.
    rewrite Hg by (apply lxor_below; assumption).
    rewrite <- skipn_add. replace (16 * i + 16)%nat with (16 * S i)%nat by lia. unfold slice.
    apply IH; [|lia]. apply Hb.
Qed.

Lemma pclmul_loop_spec key mem : block key -> wf_bytes mem -> forall n i v,
  v < 2 ^ 128 -> (16 * (i + n) <= length mem)%nat ->
  pclmul_loop n i (be_val key) mem v =
    Ok (fold_left (absorb (be_val key)) (Gcm.split_blocks n (skipn (16 * i) mem)) v) /\
  fold_left (absorb (be_val key)) (Gcm.split_blocks n (skipn (16 * i) mem)) v < 2 ^ 128.
Proof.
  intros Hk Hm. pose proof (block_bound key Hk) as Bk.
  apply (pclmul_loop_generic (be_val key) (fun X => Gcm.mult X (be_val key)));
    [intros x Hx; now apply gmul_mult|intro x; now apply mult_bound|exact Hm].
Qed.

Lemma pclmul_digest_spec key shift m mem :
  block key -> padded m mem -> N.of_nat (length m) < 2 ^ 29 ->
  pclmul_digest (pclmul_init key) shift mem (length m) = Ok (be_bytes 16 (Gcm.ghash (be_val key) (Gcm.input shift m))).
Proof.
  intros Hk [post [-> Hm]] Hl. unfold pclmul_digest, pclmul_init. rewrite byteswap_val by exact Hk.
  pose proof (length_pad16 m) as LP. pose proof (block_bound key Hk) as Bk.
  destruct (pclmul_loop_spec key _ Hk Hm ((length m + 15) / 16) 0 0 eq_refl) as [E BV].
  { rewrite app_length. lia. }
  rewrite E. cbn [bind].
  destruct (make_size_spec (length m) shift Hl) as [sz [ES [Bs Vs]]]. rewrite ES. cbn [bind]. cbv zeta.
  rewrite byteswap_val by exact Bs. pose proof (block_bound _ Bs) as Bb.
  rewrite gmul_mult by (try apply lxor_below; assumption).
  rewrite byteswap_back by (apply mult_bound; exact Bk). do 2 f_equal.
  rewrite Vs. change (16 * 0)%nat with 0%nat. rewrite skipn_O, split_blocks_app by lia.
  unfold Gcm.ghash, Gcm.input, Gcm.message_blocks. rewrite fold_left_app. cbn [fold_left].
  rewrite LP. replace (16 * ((length m + 15) / 16) / 16)%nat with ((length m + 15) / 16)%nat by lia.
  destruct shift; reflexivity.
Qed.

Lemma pclmul_too_long key shift m mem :
  block key -> padded m mem -> 2 ^ 29 <= N.of_nat (length m) ->
  pclmul_digest (pclmul_init key) shift mem (length m) = Bug.
Proof.
  intros Hk [post [-> Hm]] Hl. unfold pclmul_digest, pclmul_init. rewrite byteswap_val by exact Hk.
  destruct (pclmul_loop_spec key _ Hk Hm ((length m + 15) / 16) 0 0 eq_refl) as [E _].
  { rewrite app_length, length_pad16. lia. }
  rewrite E. cbn [bind]. unfold make_size. destruct (N.leb_spec (2 ^ 29) (N.of_nat (length m))); [reflexivity|lia].
Qed.

(** ** The standard's multiplication is the field's *)
Lemma mult_field X Y : X < 2 ^ 128 -> Y < 2 ^ 128 ->
  Gcm.poly (Gcm.mult X Y) = Gcm.field_mul (Gcm.poly X) (Gcm.poly Y).
Proof.
  apply (bilinear_ext (fun X Y => Gcm.poly (Gcm.mult X Y)) (fun X Y => Gcm.field_mul (Gcm.poly X) (Gcm.poly Y)) 128).
  - intro b. apply (lin_comp Gcm.poly); [apply poly_lin|apply mult_lin_X].
  - intro a. apply (lin_comp Gcm.poly); [apply poly_lin|apply mult_lin_Y].
  - intro b. unfold Gcm.field_mul. apply (lin_comp (Gcm.poly_mod 127)); [apply poly_mod_lin|].
    apply (lin_comp (fun a => Gcm.poly_mul 128 a (Gcm.poly b))); [apply poly_mul_lin_a|apply poly_lin].
  - intro a. unfold Gcm.field_mul. apply (lin_comp (Gcm.poly_mod 127)); [apply poly_mod_lin|].
    apply (lin_comp (Gcm.poly_mul 128 (Gcm.poly a))); [apply poly_mul_lin_b|apply poly_lin].
  - exact field_basis.
Qed.

(** ** Unambiguous input *)
Lemma split_blocks_inj n : forall b1 b2, wf_bytes b1 -> wf_bytes b2 ->
  length b1 = (16 * n)%nat -> length b2 = (16 * n)%nat -> Gcm.split_blocks n b1 = Gcm.split_blocks n b2 -> b1 = b2.
Proof.
  induction n as [|n IH]; intros b1 b2 W1 W2 L1 L2 E; cbn [Gcm.split_blocks] in E.
  - destruct b1, b2; try discriminate. reflexivity.
  - injection E as E1 E2. rewrite <- (firstn_skipn 16 b1), <- (firstn_skipn 16 b2).
    assert (S : forall b, wf_bytes b -> wf_bytes (firstn 16 b) /\ wf_bytes (skipn 16 b)).
    { intros b Hb. rewrite <- (firstn_skipn 16 b) in Hb. now apply wf_app in Hb. }
    destruct (S b1 W1), (S b2 W2). f_equal.
    + apply be_val_inj; try assumption. rewrite !firstn_length_le by lia. reflexivity.
    + apply IH; try assumption; rewrite skipn_length; lia.
Qed.

Lemma length_split_blocks n : forall b, length (Gcm.split_blocks n b) = n.
Proof. induction n as [|n IH]; intro b; cbn [Gcm.split_blocks length]; [reflexivity|]. now rewrite IH. Qed.

Lemma input_inj shift m1 m2 : wf_bytes m1 -> wf_bytes m2 ->
  Gcm.input shift m1 = Gcm.input shift m2 -> m1 = m2.
Proof.
  intros W1 W2 E. unfold Gcm.input in E. apply app_inj_tail in E. destruct E as [E1 E2].
  assert (L : length m1 = length m2).
  { unfold Gcm.length_block in E2. destruct shift; lia. }
  unfold Gcm.message_blocks in E1.
  assert (P : Gcm.pad16 m1 = Gcm.pad16 m2).
  { rewrite !length_pad16, L in E1.
    replace (16 * ((length m2 + 15) / 16) / 16)%nat with ((length m2 + 15) / 16)%nat in E1 by lia.
    assert (Wp : forall m, wf_bytes m -> wf_bytes (Gcm.pad16 m)).
    { intros m Hm. unfold Gcm.pad16. apply wf_app. split; [exact Hm|].
      apply Forall_forall. intros x Hx. apply repeat_spec in Hx. rewrite Hx. reflexivity. }
    eapply split_blocks_inj; [now apply Wp|now apply Wp| | |exact E1]; rewrite length_pad16; now rewrite ?L. }
  unfold Gcm.pad16 in P. rewrite L in P. now apply app_inv_tail in P.
Qed.
