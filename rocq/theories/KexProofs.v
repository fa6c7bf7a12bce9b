(** Proofs about the key exchange *)
From Verif Require Import Base BaseLemmas BufferModel KexModel KexSpec.
From Verif Require ShaProofs.
From Coq Require Import Eqdep_dec Bool.

(** ** Dividing by 8, and the bits of secrets *)
Lemma le_val_app : forall a b, (le_val (a ++ b) = le_val a + 2 ^ (8 * N.of_nat (length a)) * le_val b)%N.
Proof.
  intros a. induction a as [|x a IH]; intros b; cbn [app le_val length]; [rewrite N.mul_1_l; reflexivity|]. rewrite IH.
  replace (8 * N.of_nat (S (length a)))%N with (8 + 8 * N.of_nat (length a))%N by lia. rewrite N.pow_add_r. change (2 ^ 8)%N with 256%N. lia.
Qed.

Lemma divide_spec : forall l, wf_bytes l -> let '(r, c) := divide_loop l in
  (le_val r = le_val l / 8 /\ c = 32 * (le_val l mod 8) /\ length r = length l /\ wf_bytes r)%N.
Proof.
  intros l. induction l as [|b l IH]; intros Hw; cbn [divide_loop le_val].
  - split; [reflexivity|]. split; [reflexivity|]. split; [reflexivity | constructor].
  - inversion Hw as [|? ? Hb Hl]; subst. specialize (IH Hl). destruct (divide_loop l) as [r c]. destruct IH as (I1 & I2 & I3 & I4). unfold is_byte in Hb.
    assert (Hs : N.shiftr b 3 = (b / 8)%N) by (rewrite N.shiftr_div_pow2; reflexivity).
    assert (Hm : (le_val l mod 8 < 8)%N) by (apply N.mod_lt; discriminate).
    assert (Hlor : N.lor (N.shiftr b 3) c = (b / 8 + 32 * (le_val l mod 8))%N).
    { rewrite Hs, I2, (N.mul_comm 32). change 32%N with (2 ^ 5)%N. apply ShaProofs.lor_disjoint. change (2 ^ 5)%N with 32%N. apply N.div_lt_upper_bound; [discriminate | lia]. }
    cbn [le_val length]. rewrite Hlor, I1. split; [|split; [|split]].
    + apply (N.div_unique _ 8 _ (b mod 8)); [apply N.mod_lt; discriminate|]. pose proof (N.div_mod b 8 ltac:(discriminate)). pose proof (N.div_mod (le_val l) 8 ltac:(discriminate)). lia.
    + change 0xff%N with (N.ones 8). rewrite N.land_ones, N.shiftl_mul_pow2. change (2 ^ 5)%N with 32%N. change (2 ^ 8)%N with (8 * 32)%N.
      rewrite N.mul_mod_distr_r by discriminate. rewrite (N.mul_comm 32). f_equal. replace (256 * le_val l)%N with (32 * le_val l * 8)%N by lia. symmetry. apply N.mod_add. discriminate.
    + rewrite I3. reflexivity.
    + constructor; [|exact I4]. unfold is_byte. assert (b / 8 < 32)%N by (apply N.div_lt_upper_bound; [discriminate | lia]). lia.
Qed.
Lemma divide_key_spec : forall l r ok, wf_bytes l -> divide_key l = (r, ok) ->
  (le_val r = le_val l / 8)%N /\ (ok = true <-> (le_val l mod 8 = 0)%N) /\ length r = length l /\ wf_bytes r.
Proof.
  intros l r ok Hw H. unfold divide_key in H. pose proof (divide_spec l Hw) as X. destruct (divide_loop l) as [r' c]. injection H as <- <-. destruct X as (X1 & X2 & X3 & X4).
  split; [exact X1|]. split; [|split; assumption]. rewrite N.eqb_eq. lia.
Qed.

Lemma word_split : forall l, word256 l -> exists b0 m b31, l = b0 :: m ++ [b31] /\ length m = 30 /\ is_byte b0 /\ wf_bytes m /\ is_byte b31.
Proof.
  intros l [Hl Hw]. destruct l as [|b0 l]; [discriminate|]. cbn [length] in Hl. injection Hl as Hl. inversion Hw as [|? ? H0 Hr]; subst.
  destruct (exists_last (l := l)) as (m & b31 & E); [intros ->; discriminate|]. exists b0, m, b31. subst l. apply Forall_app in Hr. destruct Hr as [Hm H31]. rewrite app_length in Hl. cbn [length] in Hl.
  split; [reflexivity|]. split; [lia|]. split; [exact H0|]. split; [exact Hm|]. inversion H31; assumption.
Qed.
Lemma small_check : forall (f : N -> bool), forallb f (map N.of_nat (seq 0 256)) = true -> forall b, is_byte b -> f b = true.
Proof.
  intros f H b Hb. rewrite forallb_forall in H. apply H. apply in_map_iff. exists (N.to_nat b). unfold is_byte in Hb. split; [lia|]. apply in_seq. lia.
Qed.
Lemma byte_low : forall b, is_byte b -> N.land b 0xf8 = (8 * (b / 8))%N.
Proof.
  intros b H. apply N.eqb_eq. revert b H. apply (small_check (fun b => N.land b 0xf8 =? 8 * (b / 8))%N). vm_compute. reflexivity.
Qed.
Lemma byte_high : forall b, is_byte b -> N.lor (N.land b 0x7f) 0x40 = (64 + b mod 64)%N.
Proof.
  intros b H. apply N.eqb_eq. revert b H. apply (small_check (fun b => N.lor (N.land b 0x7f) 0x40 =? 64 + b mod 64)%N). vm_compute. reflexivity.
Qed.
Lemma byte_top : forall b, is_byte b -> N.lor b 0x80 = (128 + b mod 128)%N.
Proof.
  intros b H. apply N.eqb_eq. revert b H. apply (small_check (fun b => N.lor b 0x80 =? 128 + b mod 128)%N). vm_compute. reflexivity.
Qed.

Lemma upd_last : forall m b f, upd (m ++ [b]) (length m) f = m ++ [f b].
Proof.
  intros m b f. unfold upd. rewrite firstn_app, firstn_all, Nat.sub_diag, firstn_O, app_nil_r. f_equal. rewrite app_nth2, Nat.sub_diag by apply Nat.le_refl. cbn [nth]. f_equal.
  apply skipn_all2. rewrite app_length. cbn [length]. lia.
Qed.

Lemma upd_at : forall m b n f, length m = n -> upd (m ++ [b]) n f = m ++ [f b].
Proof. intros m b n f <-. apply upd_last. Qed.

Lemma sanitize_spec : forall l, word256 l -> le_val (sanitize l) = ephemeral l /\ word256 (sanitize l).
Proof.
  intros l Hl. destruct (word_split l Hl) as (b0 & m & b31 & -> & Hm & H0 & Hwm & H31).
  assert (E : sanitize (b0 :: m ++ [b31]) = (8 * (b0 / 8))%N :: m ++ [(64 + b31 mod 64)%N]).
  { unfold sanitize. assert (E1 : upd (b0 :: m ++ [b31]) 0 (fun b => N.land b 0xf8) = (8 * (b0 / 8))%N :: m ++ [b31]) by (unfold upd; cbn [firstn nth skipn app]; rewrite byte_low by exact H0; reflexivity).
    rewrite E1. rewrite (upd_at ((8 * (b0 / 8))%N :: m) b31 31) by (cbn [length]; lia). rewrite byte_high by exact H31. reflexivity. }
  rewrite E. split.
  - unfold ephemeral. cbn [le_val]. rewrite !le_val_app, Hm. cbn [le_val]. change (8 * N.of_nat 30)%N with 240%N. rewrite !N.mul_0_r, !N.add_0_r.
    pose proof (le_val_bound m Hwm) as Bm. rewrite Hm in Bm. change (8 * N.of_nat 30)%N with 240%N in Bm.
    unfold is_byte in *. set (v := le_val m) in *. clearbody v.
    pose proof (N.div_mod b0 8 ltac:(discriminate)) as D0. pose proof (N.mod_lt b0 8 ltac:(discriminate)) as M0.
    pose proof (N.div_mod b31 64 ltac:(discriminate)) as D3. pose proof (N.mod_lt b31 64 ltac:(discriminate)) as M3.
    set (q0 := (b0 / 8)%N) in *. set (r0 := (b0 mod 8)%N) in *. set (q3 := (b31 / 64)%N) in *. set (r3 := (b31 mod 64)%N) in *. clearbody q0 r0 q3 r3.
    assert (Hd : ((b0 + 256 * (v + 2 ^ 240 * b31)) / 8 = q0 + 32 * (v + 2 ^ 240 * b31))%N) by (symmetry; apply (N.div_unique _ 8 _ r0); [exact M0 | rewrite D0; lia]).
    rewrite Hd. assert (Hmod : ((q0 + 32 * (v + 2 ^ 240 * b31)) mod 2 ^ 251 = q0 + 32 * (v + 2 ^ 240 * r3))%N).
    { symmetry. apply (N.mod_unique _ _ q3); [|rewrite D3; change (2 ^ 251)%N with (32 * 2 ^ 240 * 64)%N; lia].
      change (2 ^ 251)%N with (32 * (2 ^ 240 * 64))%N. assert (q0 < 32)%N by lia. change (2 ^ 240)%N with 1766847064778384329583297500742918515827483896875618958121606201292619776%N in *. lia. }
    rewrite Hmod. change (2 ^ 254)%N with (256 * (2 ^ 240 * 64))%N. lia.
  - split; [cbn [length]; rewrite app_length; cbn [length]; lia|]. constructor; [unfold is_byte in *; pose proof (N.div_mod b0 8 ltac:(discriminate)); lia|]. apply Forall_app. split; [exact Hwm|].
    constructor; [|constructor]. unfold is_byte. pose proof (N.mod_lt b31 64 ltac:(discriminate)). lia.
Qed.

Lemma half_spec : forall l, length l = 16 -> wf_bytes l -> le_val (upd l 15 (fun b => N.lor b 0x80)) = (2 ^ 127 + le_val l mod 2 ^ 127)%N.
Proof.
  intros l Hl Hw. destruct (exists_last (l := l)) as (m & b & E); [intros ->; discriminate|]. subst l. rewrite app_length in Hl. cbn [length] in Hl.
  apply Forall_app in Hw. destruct Hw as [Hm Hb]. inversion Hb as [|? ? Hb' _]; subst. replace 15 with (length m) by lia. rewrite upd_last, byte_top by exact Hb'.
  rewrite !le_val_app. cbn [le_val]. rewrite !N.mul_0_r, !N.add_0_r. pose proof (le_val_bound m Hm) as Bm. replace (8 * N.of_nat (length m))%N with 120%N in * by lia.
  unfold is_byte in *. set (v := le_val m) in *. clearbody v. pose proof (N.div_mod b 128 ltac:(discriminate)) as D. pose proof (N.mod_lt b 128 ltac:(discriminate)) as M.
  set (q := (b / 128)%N) in *. set (r := (b mod 128)%N) in *. clearbody q r.
  assert (E : ((v + 2 ^ 120 * b) mod 2 ^ 127 = v + 2 ^ 120 * r)%N).
  { symmetry. apply (N.mod_unique _ _ q); [|rewrite D; change (2 ^ 127)%N with (2 ^ 120 * 128)%N; lia]. change (2 ^ 127)%N with (2 ^ 120 * 128)%N. change (2 ^ 120)%N with 1329227995784915872903807060280344576%N in *. lia. }
  rewrite E. change (2 ^ 127)%N with (2 ^ 120 * 128)%N. lia.
Qed.
Lemma half_d : forall h, length h = 32 -> wf_bytes h -> half h 0 = factor_d h.
Proof.
  intros h Hl Hw. unfold half, factor_d. rewrite skipn_O. apply half_spec; [rewrite firstn_length; lia|]. unfold wf_bytes in *. apply Forall_forall. intros x Hx. rewrite Forall_forall in Hw. apply Hw. rewrite <- (firstn_skipn 16 h). apply in_or_app. left. exact Hx.
Qed.
Lemma half_e : forall h, length h = 32 -> wf_bytes h -> half h 16 = factor_e h.
Proof.
  intros h Hl Hw. unfold half, factor_e. rewrite firstn_all2 by (rewrite skipn_length; lia). apply half_spec; [rewrite skipn_length; lia|]. unfold wf_bytes in *. apply Forall_forall. intros x Hx. rewrite Forall_forall in Hw. apply Hw. rewrite <- (firstn_skipn 16 h). apply in_or_app. right. exact Hx.
Qed.
Lemma factor_small : forall v, (2 ^ 127 + v mod 2 ^ 127 < 2 ^ 128)%N.
Proof. intros v. pose proof (N.mod_lt v (2 ^ 127) ltac:(discriminate)). change (2 ^ 128)%N with (2 ^ 127 + 2 ^ 127)%N. lia. Qed.

(** ** Multiples of points *)
Section Group.
Variable K : kex.
Hypothesis L : laws K.

Notation add := (k_add K).
Notation zero := (k_zero K).
Notation mul := (smul K).
Notation G := (k_base K).

Lemma smul_succ : forall n p, mul (N.succ n) p = add p (mul n p).
Proof.
  intros n p. destruct n as [|q]; cbn [N.succ smul].
  - cbn [Pos.iter_op]. rewrite (l_comm K L), (l_zero K L). reflexivity.
  - apply Pos.iter_op_succ. apply (l_assoc K L).
Qed.
Lemma smul_0 : forall p, mul 0 p = zero. Proof. reflexivity. Qed.
Lemma smul_1 : forall p, mul 1 p = p. Proof. reflexivity. Qed.
Lemma smul_plus : forall m n p, mul (m + n) p = add (mul m p) (mul n p).
Proof.
  intros m n p. induction m as [|m IH] using N.peano_ind; [rewrite N.add_0_l, smul_0, (l_zero K L); reflexivity|].
  rewrite N.add_succ_l, !smul_succ, IH. apply (l_assoc K L).
Qed.
Lemma smul_of_zero : forall n, mul n zero = zero.
Proof. intros n. induction n as [|n IH] using N.peano_ind; [reflexivity|]. rewrite smul_succ, IH. apply (l_zero K L). Qed.
Lemma smul_mult : forall m n p, mul (m * n) p = mul m (mul n p).
Proof.
  intros m n p. induction m as [|m IH] using N.peano_ind; [reflexivity|]. rewrite N.mul_succ_l, N.add_comm, smul_plus, smul_succ, IH. reflexivity.
Qed.
Lemma octuple_mul : forall p, octuple K p = mul 8 p.
Proof. intros p. unfold octuple. change 8%N with (4 + 4)%N. rewrite smul_plus. change 4%N with (2 + 2)%N. rewrite smul_plus. change 2%N with (1 + 1)%N. rewrite smul_plus, smul_1. reflexivity. Qed.
Lemma order_pos : (k_order K <> 0)%N.
Proof. pose proof (l_large K L). lia. Qed.
Lemma smul_mod : forall n, mul (n mod k_order K) G = mul n G.
Proof.
  intros n. rewrite (N.div_mod n (k_order K) order_pos) at 2. rewrite smul_plus. assert (E : mul (k_order K * (n / k_order K)) G = zero) by (apply (l_order K L); rewrite N.mul_comm; apply N.mod_mul, order_pos).
  rewrite E, (l_zero K L). reflexivity.
Qed.
Lemma smul_cong : forall m n, (m mod k_order K = n mod k_order K)%N -> mul m G = mul n G.
Proof. intros m n H. rewrite <- (smul_mod m), <- (smul_mod n), H. reflexivity. Qed.
Lemma smul_bits_small : forall n p b, (n < 2 ^ b)%N -> smul_bits K n p b = mul n p.
Proof. intros n p b H. unfold smul_bits. rewrite N.mod_small by exact H. reflexivity. Qed.

(** A key pair of a secret *)
Definition pair_of (kp : keypair) (s : N) : Prop :=
  (le_val (kp_secret kp) * 8 = s)%N /\ kp_public kp = k_store K (mul s G).

Lemma word_small : forall l, word256 l -> (le_val l < 2 ^ 256)%N.
Proof. intros l [Hl Hw]. pose proof (le_val_bound l Hw) as B. rewrite Hl in B. exact B. Qed.
Lemma divided : forall l, word256 l -> (le_val l mod 8 = 0)%N -> exists s, divide_key l = (s, true) /\ (le_val s * 8 = le_val l)%N.
Proof.
  intros l [Hl Hw] Hm. destruct (divide_key l) as [s ok] eqn:E. destruct (divide_key_spec l s ok Hw E) as (A & B & _). exists s. split; [f_equal; apply B; exact Hm|].
  rewrite A. pose proof (N.div_mod (le_val l) 8 ltac:(discriminate)). lia.
Qed.
Lemma init_iff : forall l, word256 l -> (le_val l mod 8 = 0)%N /\ (exists kp, protocol_init K l = Ok kp /\ pair_of kp (le_val l)) \/ (le_val l mod 8 <> 0)%N /\ protocol_init K l = Fatal.
Proof.
  intros l Hl. unfold protocol_init. destruct (N.eq_dec (le_val l mod 8) 0) as [E|E].
  - left. split; [exact E|]. destruct (divided l Hl E) as (s & -> & Hs). eexists. split; [reflexivity|]. split; [exact Hs|]. cbn [kp_public]. unfold public_of, scalarmult. rewrite smul_bits_small by exact (word_small l Hl). reflexivity.
  - right. split; [exact E|]. destruct (divide_key l) as [s ok] eqn:D. destruct Hl as [Hl Hw]. destruct (divide_key_spec l s ok Hw D) as (_ & B & _). destruct ok; [|reflexivity]. exfalso. apply E, B. reflexivity.
Qed.
Lemma eph_mod : forall l, (ephemeral l mod 8 = 0)%N.
Proof. intros l. unfold ephemeral. change (2 ^ 254)%N with (8 * 2 ^ 251)%N. rewrite <- N.mul_add_distr_l, N.mul_comm. apply N.mod_mul. discriminate. Qed.
Lemma new_key : forall l, word256 l -> exists kp, new_handshake_key K l = Ok kp /\ pair_of kp (ephemeral l).
Proof.
  intros l Hl. destruct (sanitize_spec l Hl) as [E W]. unfold new_handshake_key. pose proof (eph_mod l) as M. rewrite <- E in M. destruct (divided _ W M) as (s & -> & Hs). eexists. split; [reflexivity|].
  split; [rewrite <- E; exact Hs|]. cbn [kp_public]. unfold public_of, scalarmult. rewrite smul_bits_small by exact (word_small _ W). rewrite E. reflexivity.
Qed.
Lemma eph_nonzero : forall l, mul (ephemeral l) G <> zero.
Proof.
  intros l H. apply (l_order K L) in H. apply N.mod_divide in H; [|exact order_pos]. destruct H as [k Hk]. unfold ephemeral in Hk.
  pose proof (N.mod_lt (le_val l / 8) (2 ^ 251) ltac:(discriminate)) as Hm. set (v := ((le_val l / 8) mod 2 ^ 251)%N) in *. clearbody v.
  destruct (l_large K L) as [Lo Hi]. pose proof (l_odd K L) as Ho.
  change (2 ^ 254)%N with (8 * 2 ^ 251)%N in Hk. change (2 ^ 252)%N with (2 * 2 ^ 251)%N in Lo. change (2 ^ 253)%N with (4 * 2 ^ 251)%N in Hi. set (q := (2 ^ 251)%N) in *. assert (Hq : (0 < q)%N) by reflexivity. clearbody q.
  assert (Hko : ((k * k_order K) mod 8 = 0)%N) by (rewrite <- Hk, <- N.mul_add_distr_l, N.mul_comm; apply N.mod_mul; discriminate).
  assert (Hk8 : (k < 8)%N) by (destruct (N.lt_ge_cases k 8) as [X|X]; [exact X|]; exfalso; assert (8 * k_order K <= k * k_order K)%N by (apply N.mul_le_mono_r; exact X); lia).
  assert (Hk0 : k <> 0%N) by (intros ->; lia).
  rewrite N.mul_mod in Hko by discriminate. pose proof (N.mod_lt (k_order K) 8 ltac:(discriminate)) as Hr.
  assert (Hodd : ((k_order K mod 8) mod 2 = 1)%N).
  { rewrite <- Ho. pose proof (N.div_mod (k_order K) 8 ltac:(discriminate)) as D. rewrite D at 2. replace (8 * (k_order K / 8))%N with (4 * (k_order K / 8) * 2)%N by lia.
    rewrite N.add_comm, N.mod_add by discriminate. reflexivity. }
  set (r := (k_order K mod 8)%N) in *. clearbody r. rewrite (N.mod_small k) in Hko by exact Hk8.
  assert (Hc : forallb (fun a => forallb (fun b => negb (((a * b) mod 8 =? 0) && (b mod 2 =? 1) && negb (a =? 0)))%N [0;1;2;3;4;5;6;7]%N) [0;1;2;3;4;5;6;7]%N = true) by (vm_compute; reflexivity).
  rewrite forallb_forall in Hc. assert (In8 : forall x, (x < 8)%N -> In x [0;1;2;3;4;5;6;7]%N) by (intros x Hx; cbn [In]; lia).
  specialize (Hc k (In8 k Hk8)). rewrite forallb_forall in Hc. specialize (Hc r (In8 r Hr)). rewrite Hko, Hodd in Hc. apply N.eqb_neq in Hk0. rewrite Hk0 in Hc. discriminate.
Qed.
Lemma is_zero_false : forall p, p <> zero -> k_is_zero K p = false.
Proof. intros p H. destruct (k_is_zero K p) eqn:E; [|reflexivity]. apply (l_is_zero K L) in E. contradiction. Qed.

(** The value computed by one side *)
Lemma side : forall c1 c2 s a8 x8 b y, (s < 2 ^ 256)%N -> (s mod k_order K = (c1 * a8 + x8) mod k_order K)%N ->
  scalarmult K s (octuple K (add (mul y G) (mul c2 (mul b G)))) = mul ((c1 * (a8 * 8) + x8 * 8) * (c2 * b + y)) G.
Proof.
  intros c1 c2 s a8 x8 b y Hs Hm. unfold scalarmult. rewrite smul_bits_small by exact Hs. rewrite octuple_mul, <- (smul_mult c2 b), <- smul_plus, <- (smul_mult 8), <- (smul_mult s). apply smul_cong.
  rewrite N.mul_mod by apply order_pos. rewrite Hm. rewrite <- N.mul_mod by apply order_pos. f_equal. lia.
Qed.

Definition outcome (a b x y : N) : option (bytes * bytes) :=
  let p := fhmqv K a b x y in
  if k_is_zero K p then None
  else Some (k_store K p, derive_key K 1 (repeat 0%N 32) [] (k_store K (mul a G)) (k_store K (mul b G)) (k_store K (mul x G)) (k_store K (mul y G)) (k_store K p)).

Lemma gf_value : forall c s t, (k_gf_add K (k_gf_mult K c s) t mod k_order K = (c * s + t) mod k_order K)%N.
Proof.
  intros c s t. destruct (l_gf_add K L (k_gf_mult K c s) t) as [-> _]. rewrite N.add_mod by apply order_pos. destruct (l_gf_mult K L c s) as [-> _]. rewrite <- N.add_mod by apply order_pos. reflexivity.
Qed.
Lemma load_peer : forall b pk, load_key K (k_store K (mul b G)) = Some pk -> pk_key pk = k_store K (mul b G) /\ pk_point pk = mul b G.
Proof. intros b pk H. unfold load_key in H. rewrite (l_store K L) in H. destruct (k_is_zero K _); [discriminate|]. injection H as <-. split; reflexivity. Qed.

Lemma initiator_value : forall A X pk a b x y, pair_of A a -> pair_of X x -> load_key K (k_store K (mul b G)) = Some pk -> mul y G <> zero ->
  make_shared K true A X pk (k_store K (mul y G)) = outcome a b x y.
Proof.
  intros A X pk a b x y [A1 A2] [X1 X2] Hk Hy. destruct (load_peer b pk Hk) as [P1 P2]. unfold make_shared. rewrite (l_store K L), (is_zero_false _ Hy), P1, A2, X2. cbv beta iota zeta.
  set (h := k_hash K (k_store K (mul y G) ++ k_store K (mul x G) ++ k_store K (mul b G) ++ k_store K (mul a G))). assert (Eh : length h = 32 /\ wf_bytes h) by apply (l_hash K L).
  destruct Eh as [H1 H2]. rewrite half_d, half_e by assumption. rewrite P2. rewrite smul_bits_small by apply factor_small.
  rewrite (side (factor_d h) (factor_e h) _ (le_val (kp_secret A)) (le_val (kp_secret X)) b y); [|apply (l_gf_add K L) | apply gf_value].
  rewrite A1, X1. unfold outcome, fhmqv. fold h. reflexivity.
Qed.
Lemma responder_value : forall B Y pk a b x y, pair_of B b -> pair_of Y y -> load_key K (k_store K (mul a G)) = Some pk -> mul x G <> zero ->
  make_shared K false B Y pk (k_store K (mul x G)) = outcome a b x y.
Proof.
  intros B Y pk a b x y [B1 B2] [Y1 Y2] Hk Hx. destruct (load_peer a pk Hk) as [P1 P2]. unfold make_shared. rewrite (l_store K L), (is_zero_false _ Hx), P1, B2, Y2. cbv beta iota zeta.
  set (h := k_hash K (k_store K (mul y G) ++ k_store K (mul x G) ++ k_store K (mul b G) ++ k_store K (mul a G))). assert (Eh : length h = 32 /\ wf_bytes h) by apply (l_hash K L).
  destruct Eh as [H1 H2]. rewrite half_d, half_e by assumption. rewrite P2. rewrite smul_bits_small by apply factor_small.
  rewrite (side (factor_e h) (factor_d h) _ (le_val (kp_secret B)) (le_val (kp_secret Y)) a x); [|apply (l_gf_add K L) | apply gf_value].
  rewrite B1, Y1. unfold outcome, fhmqv. fold h.
  assert (E : mul ((factor_e h * b + y) * (factor_d h * a + x)) G = mul ((factor_d h * a + x) * (factor_e h * b + y)) G) by (rewrite N.mul_comm; reflexivity).
  rewrite E. reflexivity.
Qed.
End Group.

(** ** The two sides *)
Lemma exchange : forall K, laws K -> forall sa sb rx ry A B X Y ka kb,
  word256 sa -> word256 sb -> word256 rx -> word256 ry ->
  protocol_init K sa = Ok A -> protocol_init K sb = Ok B -> new_handshake_key K rx = Ok X -> new_handshake_key K ry = Ok Y ->
  load_key K (kp_public A) = Some ka -> load_key K (kp_public B) = Some kb ->
  make_shared K true A X kb (kp_public Y) = outcome K (le_val sa) (le_val sb) (ephemeral rx) (ephemeral ry) /\
  make_shared K false B Y ka (kp_public X) = outcome K (le_val sa) (le_val sb) (ephemeral rx) (ephemeral ry).
Proof.
  intros K L sa sb rx ry A B X Y ka kb Wa Wb Wx Wy EA EB EX EY La Lb.
  assert (PA : pair_of K A (le_val sa)) by (destruct (init_iff K sa Wa) as [(_ & kp & E & P) | (_ & E)]; [rewrite E in EA; injection EA as <-; exact P | rewrite E in EA; discriminate]).
  assert (PB : pair_of K B (le_val sb)) by (destruct (init_iff K sb Wb) as [(_ & kp & E & P) | (_ & E)]; [rewrite E in EB; injection EB as <-; exact P | rewrite E in EB; discriminate]).
  assert (PX : pair_of K X (ephemeral rx)) by (destruct (new_key K rx Wx) as (kp & E & P); rewrite E in EX; injection EX as <-; exact P).
  assert (PY : pair_of K Y (ephemeral ry)) by (destruct (new_key K ry Wy) as (kp & E & P); rewrite E in EY; injection EY as <-; exact P).
  split.
  - rewrite (proj2 PY). apply initiator_value; [exact L | exact PA | exact PX | rewrite <- (proj2 PB); exact Lb | apply eph_nonzero; exact L].
  - rewrite (proj2 PX). apply responder_value; [exact L | exact PB | exact PY | rewrite <- (proj2 PA); exact La | apply eph_nonzero; exact L].
Qed.

Lemma app_inj_len : forall (a b c d : bytes), length a = length c -> a ++ b = c ++ d -> a = c /\ b = d.
Proof.
  intros a. induction a as [|x a IH]; intros b c d Hl H; destruct c as [|y c]; try discriminate; [split; [reflexivity | exact H]|].
  cbn [app] in H. injection H as -> H. cbn [length] in Hl. destruct (IH b c d ltac:(lia) H) as [-> ->]. split; reflexivity.
Qed.
Lemma info_injective : forall m A B X Y m' A' B' X' Y',
  length A = 32 -> length B = 32 -> length X = 32 -> length Y = 32 -> length A' = 32 -> length B' = 32 -> length X' = 32 -> length Y' = 32 ->
  kdf_info m A B X Y = kdf_info m' A' B' X' Y' -> m = m' /\ A = A' /\ B = B' /\ X = X' /\ Y = Y'.
Proof.
  intros m A B X Y m' A' B' X' Y' L1 L2 L3 L4 L5 L6 L7 L8 H. unfold kdf_info in H.
  apply app_inj_len in H; [|lia]. destruct H as [-> H]. apply app_inj_len in H; [|lia]. destruct H as [-> H]. apply app_inj_len in H; [|lia]. destruct H as [-> H]. apply app_inj_len in H; [|lia]. destruct H as [-> ->].
  repeat split.
Qed.

(** ** A concrete instance: numbers below 8 times the order of Curve25519's base point *)
Definition ex_order : N := (2 ^ 252 + 27742317777372353535851937790883648493)%N.
Definition ex_size : N := Eval vm_compute in (8 * ex_order)%N.
Definition ex_pt : Type := { n : N | (n <? ex_size)%N = true }.
Definition ex_norm (n : N) : N := (if n <? ex_size then n else if n - ex_size <? ex_size then n - ex_size else 0)%N.
Lemma ex_norm_ok : forall n, (ex_norm n <? ex_size)%N = true.
Proof.
  intros n. unfold ex_norm. destruct (n <? ex_size)%N eqn:E; [exact E|]. destruct (n - ex_size <? ex_size)%N eqn:E2; [exact E2 | reflexivity].
Qed.
Definition ex_point (n : N) : ex_pt := exist _ (ex_norm n) (ex_norm_ok n).
Definition ex_kex : kex := {|
  k_pt := ex_pt; k_zero := ex_point 0; k_add := fun p q => ex_point (proj1_sig p + proj1_sig q)%N;
  k_is_zero := fun p => N.eqb (proj1_sig p) 0; k_base := ex_point 8; k_order := ex_order;
  k_store := fun p => le_bytes 32 (proj1_sig p);
  k_load := fun l => if (le_val l <? ex_size)%N then Some (ex_point (le_val l)) else None;
  k_gf_add := fun a b => ((a + b) mod ex_order)%N; k_gf_mult := fun a b => ((a * b) mod ex_order)%N;
  k_hash := fun m => le_bytes 32 (le_val m); k_extract := fun s m => s ++ m; k_expand := fun n k i => k ++ i |}.

Lemma ex_eq : forall p q : ex_pt, proj1_sig p = proj1_sig q -> p = q.
Proof. intros [p Hp] [q Hq] H. cbn [proj1_sig] in H. subst q. f_equal. apply UIP_dec. apply bool_dec. Qed.
Lemma ex_small : forall p : ex_pt, (proj1_sig p < ex_size)%N. Proof. intros [p Hp]. cbn [proj1_sig]. lia. Qed.
Lemma ex_size_pos : (ex_size <> 0)%N. Proof. discriminate. Qed.
Lemma ex_norm_mod : forall n, (n < 2 * ex_size)%N -> ex_norm n = (n mod ex_size)%N.
Proof.
  intros n H. unfold ex_norm. destruct (N.ltb_spec n ex_size) as [X|X]; [rewrite N.mod_small by exact X; reflexivity|].
  destruct (N.ltb_spec (n - ex_size) ex_size) as [Y|Y]; [|lia]. apply (N.mod_unique _ _ 1); lia.
Qed.
Lemma ex_add : forall p q : ex_pt, proj1_sig (k_add ex_kex p q) = ((proj1_sig p + proj1_sig q) mod ex_size)%N.
Proof. intros p q. cbn [k_add ex_kex proj1_sig ex_point]. apply ex_norm_mod. pose proof (ex_small p). pose proof (ex_small q). lia. Qed.
Lemma ex_mul : forall n (p : ex_pt), proj1_sig (smul ex_kex n p) = ((n * proj1_sig p) mod ex_size)%N.
Proof.
  assert (As : forall x y z : ex_pt, k_add ex_kex x (k_add ex_kex y z) = k_add ex_kex (k_add ex_kex x y) z).
  { intros x y z. apply ex_eq. rewrite !ex_add. rewrite N.add_mod_idemp_r, N.add_mod_idemp_l by exact ex_size_pos. f_equal. lia. }
  intros n p. induction n as [|n IH] using N.peano_ind; [reflexivity|].
  assert (E : smul ex_kex (N.succ n) p = k_add ex_kex p (smul ex_kex n p)).
  { destruct n as [|q]; cbn [N.succ smul].
    - cbn [Pos.iter_op]. apply ex_eq. rewrite ex_add. change (proj1_sig (k_zero ex_kex)) with 0%N. rewrite N.add_0_r, N.mod_small by apply ex_small. reflexivity.
    - apply Pos.iter_op_succ. exact As. }
  rewrite E, ex_add, IH. rewrite N.add_mod_idemp_r by exact ex_size_pos. f_equal. lia.
Qed.
Lemma wf_le_bytes : forall n v, wf_bytes (le_bytes n v).
Proof. intros n. induction n as [|n IH]; intros v; cbn [le_bytes]; constructor; [apply N.mod_lt; discriminate | apply IH]. Qed.
Lemma len_le_bytes : forall n v, length (le_bytes n v) = n.
Proof. intros n. induction n as [|n IH]; intros v; [reflexivity|]. cbn [le_bytes length]. rewrite IH. reflexivity. Qed.
Lemma ex_laws : laws ex_kex.
Proof.
  constructor.
  - intros x y z. apply ex_eq. rewrite !ex_add. rewrite N.add_mod_idemp_r, N.add_mod_idemp_l by exact ex_size_pos. f_equal. lia.
  - intros p q. apply ex_eq. rewrite !ex_add. f_equal. lia.
  - intros p. apply ex_eq. rewrite ex_add. change (proj1_sig (k_zero ex_kex)) with 0%N. rewrite N.add_0_l, N.mod_small by apply ex_small. reflexivity.
  - intros p. cbn [k_is_zero ex_kex]. rewrite N.eqb_eq. split; [intros H; apply ex_eq; rewrite H; reflexivity | intros ->; reflexivity].
  - reflexivity.
  - split; reflexivity.
  - intros n. cbn [k_order ex_kex]. split; intros H.
    + pose proof (ex_mul n (k_base ex_kex)) as E. rewrite H in E. change (proj1_sig (k_zero ex_kex)) with 0%N in E. change (proj1_sig (k_base ex_kex)) with 8%N in E.
      change ex_size with (ex_order * 8)%N in E. rewrite N.mul_mod_distr_r in E by discriminate. lia.
    + apply ex_eq. rewrite ex_mul. change (proj1_sig (k_zero ex_kex)) with 0%N. change (proj1_sig (k_base ex_kex)) with 8%N. change ex_size with (ex_order * 8)%N. rewrite N.mul_mod_distr_r by discriminate. lia.
  - intros p. cbn [k_load k_store ex_kex]. rewrite le_val_le_bytes. assert (E : (proj1_sig p mod 2 ^ (8 * N.of_nat 32) = proj1_sig p)%N).
    { apply N.mod_small. apply (N.lt_trans _ ex_size); [apply ex_small | reflexivity]. }
    rewrite E. pose proof (ex_small p) as Hs. destruct (N.ltb_spec (proj1_sig p) ex_size) as [_|X]; [|lia]. f_equal. apply ex_eq. cbn [ex_point proj1_sig]. unfold ex_norm. apply N.ltb_lt in Hs. rewrite Hs. reflexivity.
  - intros p. apply len_le_bytes.
  - intros a b. cbn [k_gf_add k_order ex_kex]. split; [apply N.mod_mod; discriminate|]. apply (N.lt_trans _ ex_order); [apply N.mod_lt; discriminate | reflexivity].
  - intros a b. cbn [k_gf_mult k_order ex_kex]. split; [apply N.mod_mod; discriminate|]. apply (N.lt_trans _ ex_order); [apply N.mod_lt; discriminate | reflexivity].
  - intros m. cbn [k_hash ex_kex]. split; [apply len_le_bytes | apply wf_le_bytes].
Qed.

Lemma exchange_agrees : forall K, laws K -> forall sa sb rx ry A B X Y ka kb,
  word256 sa -> word256 sb -> word256 rx -> word256 ry ->
  protocol_init K sa = Ok A -> protocol_init K sb = Ok B -> new_handshake_key K rx = Ok X -> new_handshake_key K ry = Ok Y ->
  load_key K (kp_public A) = Some ka -> load_key K (kp_public B) = Some kb ->
  let r := exchanged K (le_val sa) (le_val sb) (ephemeral rx) (ephemeral ry) (kp_public A) (kp_public B) (kp_public X) (kp_public Y) in
  make_shared K true A X kb (kp_public Y) = r /\ make_shared K false B Y ka (kp_public X) = r.
Proof.
  intros K L sa sb rx ry A B X Y ka kb Wa Wb Wx Wy EA EB EX EY La Lb r.
  destruct (exchange K L sa sb rx ry A B X Y ka kb Wa Wb Wx Wy EA EB EX EY La Lb) as [E1 E2].
  assert (E : outcome K (le_val sa) (le_val sb) (ephemeral rx) (ephemeral ry) = r); [|rewrite E1, E2, E; split; reflexivity].
  assert (PA : pair_of K A (le_val sa)) by (destruct (init_iff K sa Wa) as [(_ & kp & Ek & P) | (_ & Ek)]; [rewrite Ek in EA; injection EA as <-; exact P | rewrite Ek in EA; discriminate]).
  assert (PB : pair_of K B (le_val sb)) by (destruct (init_iff K sb Wb) as [(_ & kp & Ek & P) | (_ & Ek)]; [rewrite Ek in EB; injection EB as <-; exact P | rewrite Ek in EB; discriminate]).
  assert (PX : pair_of K X (ephemeral rx)) by (destruct (new_key K rx Wx) as (kp & Ek & P); rewrite Ek in EX; injection EX as <-; exact P).
  assert (PY : pair_of K Y (ephemeral ry)) by (destruct (new_key K ry Wy) as (kp & Ek & P); rewrite Ek in EY; injection EY as <-; exact P).
  subst r. unfold outcome, exchanged, derive_key, kdf_info. rewrite <- (proj2 PA), <- (proj2 PB), <- (proj2 PX), <- (proj2 PY), app_nil_r. reflexivity.
Qed.
Lemma ephemeral_good : forall K, laws K -> forall r, word256 r ->
  exists kp pk, new_handshake_key K r = Ok kp /\ load_key K (kp_public kp) = Some pk.
Proof.
  intros K L r Hr. destruct (new_key K r Hr) as (kp & E & P). exists kp, (mk_peerkey (kp_public kp) (smul K (ephemeral r) (k_base K))). split; [exact E|].
  unfold load_key. rewrite (proj2 P), (l_store K L), (is_zero_false K L _ (eph_nonzero K L r)). reflexivity.
Qed.
Lemma static_good : forall K, laws K -> forall s, word256 s ->
  ((exists kp, protocol_init K s = Ok kp) <-> (le_val s mod 8 = 0)%N) /\
  (forall kp, protocol_init K s = Ok kp -> ((exists pk, load_key K (kp_public kp) = Some pk) <-> (le_val s mod k_order K <> 0)%N)).
Proof.
  intros K L s Hs. split.
  - destruct (init_iff K s Hs) as [(M & kp & E & _) | (M & E)]; (split; [|intros X]); try (intros (kp' & X)); try assumption; try contradiction; try (rewrite E in X; discriminate). exists kp. exact E.
  - intros kp E. destruct (init_iff K s Hs) as [(M & kp' & E' & P) | (M & E')]; rewrite E' in E; [injection E as <- | discriminate].
    unfold load_key. rewrite (proj2 P), (l_store K L). rewrite <- (l_order K L). destruct (k_is_zero K (smul K (le_val s) (k_base K))) eqn:Z.
    + apply (l_is_zero K L) in Z. split; [intros (pk & X); discriminate | intros X; contradiction].
    + split; [|intros _; eexists; reflexivity]. intros _ X. apply (l_is_zero K L) in X. congruence.
Qed.
