(** UHASH: the implementation agrees with RFC 4418. *)
From Verif Require Import Base BaseLemmas BufferModel BufferProofs ShaProofs ShaProofs2 GhashSpec GhashProofs
  UhashModel UhashSpec UhashArith.
From Coq Require Import ZifyBool ZifyNat ZifyN.
Local Open Scope N_scope.
Local Ltac Zify.zify_post_hook ::= Z.div_mod_to_equations.

(** ** Lists *)
Lemma substr_slice s o n : Umac.substr s o n = slice s o n.
Proof. reflexivity. Qed.

Lemma skipn_add {A} (l : list A) a b : skipn a (skipn b l) = skipn (b + a) l.
Proof. revert l; induction b as [|b IH]; intros [|x l]; cbn [skipn Nat.add]; try reflexivity; [now rewrite skipn_nil|apply IH]. Qed.

Lemma slice_slice (s : bytes) a n b m : (b + m <= n)%nat -> slice (slice s a n) b m = slice s (a + b) m.
Proof.
  intro H. unfold slice. rewrite skipn_firstn_comm, skipn_add, firstn_firstn. f_equal. lia.
Qed.

Lemma nth_map_seq (f : nat -> N) n i : (i < n)%nat -> nthN (map f (seq 0 n)) i = f i.
Proof.
  intro H. unfold nthN. rewrite (nth_indep _ 0 (f 0%nat)) by (rewrite map_length, seq_length; exact H).
  rewrite (map_nth f (seq 0 n) 0%nat i). now rewrite seq_nth.
Qed.

(** The four bytes at [p], zero behind the end *)
Definition four (c : bytes) (p : nat) : bytes := map (fun t => nth (p + t) c 0) (seq 0 4).

Lemma four_slice (b : bytes) p : (p + 4 <= length b)%nat -> slice b p 4 = four b p.
Proof. apply slice_nth. Qed.

Lemma nth_pad (c : bytes) k i : nth i (c ++ repeat 0 k) 0 = nth i c 0.
Proof.
  destruct (Nat.lt_ge_cases i (length c)) as [H|H].
  - now rewrite app_nth1.
  - rewrite app_nth2 by lia. rewrite (nth_overflow c) by lia.
    remember (i - length c)%nat as j eqn:E. clear E H. revert j. induction k as [|k IH]; intros [|j]; cbn [repeat nth]; auto.
Qed.

Lemma four_pad c k p : four (c ++ repeat 0 k) p = four c p.
Proof. unfold four. apply map_ext. intro t. apply nth_pad. Qed.

Lemma four_zero c p : (length c <= p)%nat -> four c p = [0; 0; 0; 0].
Proof. intro H. unfold four. cbn [seq map]. now rewrite !nth_overflow by lia. Qed.

Lemma four_firstn c p n : (p + 4 <= n \/ length c <= n)%nat -> four (firstn n c) p = four c p.
Proof.
  intros [H|H].
  - unfold four. apply map_ext_in. intros t Ht. apply in_seq in Ht. apply nth_firstn_lt. lia.
  - now rewrite firstn_all2.
Qed.

Lemma four_skipn c p n : four (skipn n c) p = four c (n + p).
Proof. unfold four. apply map_ext. intro t. rewrite nth_skipn_add. f_equal. lia. Qed.

Lemma four_wf c p : wf_bytes c -> wf_bytes (four c p).
Proof.
  intro H. unfold four. apply Forall_forall. intros x Hx. apply in_map_iff in Hx as [t [<- _]].
  destruct (Nat.lt_ge_cases (p + t) (length c)) as [L|L].
  - apply (proj1 (Forall_forall _ _) H). now apply nth_In.
  - rewrite nth_overflow by lia. reflexivity.
Qed.

Lemma length_zeropad c : length (Umac.zeropad c 32) = (32 * Nat.max ((length c + 31) / 32) 1)%nat.
Proof.
  unfold Umac.zeropad. rewrite app_length, repeat_length.
  replace (length c + 32 - 1)%nat with (length c + 31)%nat by lia.
  remember (length c) as n eqn:E. clear E. pose proof (Nat.div_mod (n + 31) 32). lia.
Qed.

Lemma word_of_pad c j : (4 * j + 4 <= length (Umac.zeropad c 32))%nat ->
  Umac.word_of (Umac.zeropad c 32) j = le_val (four c (4 * j)).
Proof.
  intro H. unfold Umac.word_of. rewrite substr_slice, four_slice by exact H.
  unfold Umac.zeropad. rewrite four_pad. rewrite <- le_val_rev. now rewrite rev_involutive.
Qed.

(** ** NH *)
Definition msg_word (c : bytes) (j : nat) : N := le_val (four c (4 * j)).
Definition nh_prod (K : list N) (c : bytes) (g j q : nat) : N :=
  mul64 ((msg_word c (8 * g + q) + nthN K (8 * g + 4 * j + q)) mod U32)
        ((msg_word c (8 * g + q + 4) + nthN K (8 * g + 4 * j + q + 4)) mod U32).
Definition nh_group (K : list N) (c : bytes) (j g : nat) : N :=
  nh_prod K c g j 0 + nh_prod K c g j 1 + nh_prod K c g j 2 + nh_prod K c g j 3.
Fixpoint sum (l : list N) : N := match l with [] => 0 | x :: l => x + sum l end.

Lemma sum_app l1 l2 : sum (l1 ++ l2) = sum l1 + sum l2.
Proof. induction l1 as [|x l IH]; cbn [app sum]; [reflexivity|]. rewrite IH. lia. Qed.

Definition words_at (c : bytes) (g : nat) : list N := map (fun t => msg_word c (8 * g + t)) (seq 0 8).

Lemma nh_lane_spec K c g j y :
  nh_lane K (words_at c g) (8 * g) j y = (y + nh_group K c j g) mod U64.
Proof.
  unfold nh_lane, nh_group. cbv zeta.
  assert (E : forall q, (q < 4)%nat -> nh_mul K (words_at c g) (8 * g) j q = nh_prod K c g j q).
  { intros q Hq. unfold nh_mul, nh_prod, words_at. rewrite !nth_map_seq by lia. now rewrite Nat.add_assoc. }
  rewrite !E by lia.
  assert (A : forall a b, (a mod U64 + b) mod U64 = (a + b) mod U64) by (intros; apply N.add_mod_idemp_l; discriminate).
  rewrite (A (y + _)), (A (y + _ + _)), (A (y + _ + _ + _)). f_equal. lia.
Qed.

(** [c] can be read at [base] up to the 16-byte boundary behind its end *)
Definition readable (mem : bytes) (base : nat) (c : bytes) : Prop :=
  forall p, (p + 4 <= 16 * Nat.max ((length c + 15) / 16) 1)%nat -> read mem (base + p) 4 = Ok (four c p).

Lemma load_words_spec n mem base c : readable mem base c -> forall p,
  (p + 4 * n <= 16 * Nat.max ((length c + 15) / 16) 1)%nat ->
  load_words n mem (base + p) = Ok (map (fun t => le_val (four c (p + 4 * t))) (seq 0 n)).
Proof.
  intro HR. induction n as [|n IH]; intros p Hp; cbn [load_words]; [reflexivity|].
  rewrite HR by lia. cbn [bind]. replace (base + p + 4)%nat with (base + (p + 4))%nat by lia.
  rewrite IH by lia. cbn [bind seq map]. rewrite Nat.mul_0_r, Nat.add_0_r. f_equal. f_equal.
  rewrite <- seq_shift, map_map. apply map_ext. intro t. do 2 f_equal. lia.
Qed.

Definition lanes (f : nat -> N) : list N := map f (seq 0 4).

Lemma nth_lanes f j : (j < 4)%nat -> nthN (lanes f) j = f j.
Proof. apply nth_map_seq. Qed.

Lemma lanes_ext f g : (forall j, (j < 4)%nat -> f j = g j) -> lanes f = lanes g.
Proof. intro H. apply map_ext_in. intros j Hj. apply H. apply in_seq in Hj. lia. Qed.

Lemma nh_round_spec K c g y : (8 * g + 20 <= length K)%nat ->
  nh_round K (8 * g) (lanes y) (words_at c g) = Ok (lanes (fun j => (y j + nh_group K c j g) mod U64)).
Proof.
  intro H. unfold nh_round. rewrite (proj2 (Nat.leb_le _ _) H). f_equal. apply lanes_ext.
  intros j Hj. rewrite nth_lanes by exact Hj. apply nh_lane_spec.
Qed.

Definition full_rounds (blocks : nat) : nat := ((blocks - 4 + 7) / 8)%nat.

Lemma nh_loop_spec K mem base c : readable mem base c -> (length c <= 1024)%nat -> length K = 268%nat ->
  let blocks := Nat.max ((length c + 3) / 4) 4 in
  forall fuel g y, (blocks <= 8 * g + 8 * fuel)%nat -> (g <= full_rounds blocks)%nat ->
  nh_loop fuel (8 * g) blocks K mem base (lanes (fun j => y j mod U64)) =
  Ok ((8 * full_rounds blocks)%nat,
      lanes (fun j => (y j + sum (map (nh_group K c j) (seq g (full_rounds blocks - g)))) mod U64)).
Proof.
  intros HR HL HK blocks. induction fuel as [|fuel IH]; intros g y Hf Hg; cbn [nh_loop].
  - unfold full_rounds in *. destruct (Nat.ltb_spec (8 * g) (blocks - 4)); [lia|].
    replace ((blocks - 4 + 7) / 8)%nat with g by lia. rewrite Nat.sub_diag. cbn [seq map sum].
    f_equal. f_equal. apply lanes_ext. intros j _. now rewrite N.add_0_r.
  - destruct (Nat.ltb_spec (8 * g) (blocks - 4)) as [Hlt|Hge].
    + rewrite (load_words_spec 8 mem base c HR) by (unfold blocks in *; lia). cbn [bind].
      replace (map (fun t => le_val (four c (4 * (8 * g) + 4 * t))) (seq 0 8)) with (words_at c g).
      2:{ unfold words_at, msg_word. apply map_ext. intro t. do 2 f_equal. lia. }
      rewrite nh_round_spec by (unfold blocks in *; lia). cbn [bind].
      replace (8 * g + 8)%nat with (8 * S g)%nat by lia.
      replace (lanes (fun j => (y j mod U64 + nh_group K c j g) mod U64))
        with (lanes (fun j => (y j + nh_group K c j g) mod U64)).
      2:{ apply lanes_ext. intros j _. symmetry. apply N.add_mod_idemp_l. discriminate. }
      rewrite (IH (S g) (fun j => y j + nh_group K c j g)) by (unfold full_rounds in *; lia).
      f_equal. f_equal. apply lanes_ext. intros j _.
      replace (full_rounds blocks - g)%nat with (S (full_rounds blocks - S g)) by (unfold full_rounds in *; lia).
      cbn [seq map sum]. f_equal. lia.
    + unfold full_rounds in *.
      replace ((blocks - 4 + 7) / 8)%nat with g by lia. rewrite Nat.sub_diag. cbn [seq map sum].
      f_equal. f_equal. apply lanes_ext. intros j _. now rewrite N.add_0_r.
Qed.

Definition groups (n : nat) : nat := Nat.max ((n + 31) / 32) 1.
Definition l1val (K : list N) (c : bytes) (j : nat) : N :=
  (8 * N.of_nat (length c) + sum (map (nh_group K c j) (seq 0 (groups (length c))))) mod U64.

Lemma nh_spec K mem base c : readable mem base c -> (length c <= 1024)%nat -> length K = 268%nat ->
  nh K mem base (length c) = Ok (lanes (l1val K c)).
Proof.
  intros HR HL HK. unfold nh. cbv zeta.
  pose proof (nh_loop_spec K mem base c HR HL HK) as HN. cbv zeta in HN.
  remember (Nat.max ((length c + 3) / 4) 4) as blocks eqn:Eb.
  specialize (HN blocks 0%nat (fun _ => 8 * N.of_nat (length c))).
  change [8 * N.of_nat (length c) mod U64; 8 * N.of_nat (length c) mod U64;
     8 * N.of_nat (length c) mod U64; 8 * N.of_nat (length c) mod U64]
    with (lanes (fun _ => (8 * N.of_nat (length c)) mod U64)).
  change (8 * 0)%nat with 0%nat in HN. rewrite HN by lia. cbn [bind]. rewrite Nat.sub_0_r.
  destruct (Nat.ltb_spec (8 * full_rounds blocks) blocks) as [Ht|Ht].
  - rewrite (load_words_spec 4 mem base c HR) by (unfold full_rounds in *; lia). cbn [bind].
    match goal with |- nh_round _ _ _ ?b = _ =>
      replace b with (words_at c (full_rounds blocks)) end.
    2:{ unfold words_at, msg_word. cbn [seq map app].
        replace (4 * (8 * full_rounds blocks) + 4 * 0)%nat with (4 * (8 * full_rounds blocks + 0))%nat by lia.
        replace (4 * (8 * full_rounds blocks) + 4 * 1)%nat with (4 * (8 * full_rounds blocks + 1))%nat by lia.
        replace (4 * (8 * full_rounds blocks) + 4 * 2)%nat with (4 * (8 * full_rounds blocks + 2))%nat by lia.
        replace (4 * (8 * full_rounds blocks) + 4 * 3)%nat with (4 * (8 * full_rounds blocks + 3))%nat by lia.
        rewrite !(four_zero c (4 * (8 * full_rounds blocks + 4))), !(four_zero c (4 * (8 * full_rounds blocks + 5))),
          !(four_zero c (4 * (8 * full_rounds blocks + 6))), !(four_zero c (4 * (8 * full_rounds blocks + 7)))
          by (unfold full_rounds in *; lia). reflexivity. }
    rewrite (nh_round_spec K c (full_rounds blocks)
      (fun j => (8 * N.of_nat (length c) + sum (map (nh_group K c j) (seq 0 (full_rounds blocks)))) mod U64))
      by (unfold full_rounds in *; lia).
    f_equal. apply lanes_ext. intros j _. unfold l1val. rewrite N.add_mod_idemp_l by discriminate. f_equal.
    replace (groups (length c)) with (S (full_rounds blocks)) by (unfold groups, full_rounds in *; lia).
    rewrite seq_S, map_app, sum_app. cbn [map sum Nat.add]. lia.
  - f_equal. apply lanes_ext. intros j _. unfold l1val. f_equal. do 4 f_equal.
    unfold groups, full_rounds in *. lia.
Qed.


(** ** The same from the byte strings of the RFC *)
Lemma fold_mod {A} (F : N -> A -> N) (S : A -> N) l :
  (forall y g, F (y mod U64) g = (y + S g) mod U64) -> forall y,
  fold_left F l (y mod U64) = (y + sum (map S l)) mod U64.
Proof.
  intro HF. induction l as [|g l IH]; intro y; cbn [fold_left map sum]; [now rewrite N.add_0_r|].
  rewrite HF, IH. f_equal. lia.
Qed.

Lemma NH_fold (t : nat -> nat -> N) l y :
  fold_left (fun Y g => fold_left (fun Y q => Umac.add64 Y (t g q)) [0; 1; 2; 3]%nat Y) l (y mod U64) =
  (y + sum (map (fun g => t g 0%nat + t g 1%nat + t g 2%nat + t g 3%nat) l)) mod U64.
Proof.
  apply fold_mod. clear. intros y g. cbn [fold_left]. unfold Umac.add64. change (2 ^ 64) with U64.
  assert (A : forall a b, (a mod U64 + b) mod U64 = (a + b) mod U64) by (intros; apply N.add_mod_idemp_l; discriminate).
  rewrite (A y), (A (y + _)), (A (y + _ + _)), (A (y + _ + _ + _)). f_equal. lia.
Qed.

Definition l1key (key : bytes) (j : nat) : bytes := Umac.substr (Umac.substr key 0 1072) (16 * j) 1024.

Lemma key_word_l1 key j w : (j < 4)%nat -> (w < 256)%nat ->
  Umac.key_word (l1key key j) w = nthN (L1Key (uhash_init key)) (4 * j + w).
Proof.
  intros Hj Hw. cbn [uhash_init L1Key]. rewrite nth_map_seq by lia.
  unfold Umac.key_word, l1key, key32. rewrite !substr_slice. rewrite !slice_slice by lia. f_equal. f_equal. lia.
Qed.

Lemma NH_spec key j c : (j < 4)%nat -> (length c <= 1024)%nat ->
  Umac.NH (l1key key j) (Umac.zeropad c 32) =
  sum (map (nh_group (L1Key (uhash_init key)) c j) (seq 0 (groups (length c)))) mod U64.
Proof.
  intros Hj Hc. unfold Umac.NH.
  pose proof (length_zeropad c) as HL.
  assert (Eg : (length (Umac.zeropad c 32) / 32)%nat = groups (length c)).
  { rewrite HL. unfold groups. rewrite Nat.mul_comm. apply Nat.div_mul. discriminate. }
  rewrite Eg. change 0 with (0 mod U64) at 1.
  rewrite (NH_fold (fun g q => Umac.nh_term (l1key key j) (Umac.zeropad c 32) (8 * g) q)).
  rewrite N.add_0_l. f_equal. f_equal. apply map_ext_in. intros g Hg. apply in_seq in Hg. cbv beta.
  unfold nh_group.
  assert (T : forall q, (q < 4)%nat ->
    Umac.nh_term (l1key key j) (Umac.zeropad c 32) (8 * g) q = nh_prod (L1Key (uhash_init key)) c g j q).
  { intros q Hq. unfold Umac.nh_term, nh_prod, mul64, Umac.add32, msg_word.
    change (2 ^ 32) with U32. change (2 ^ 64) with U64.
    unfold groups in *.
    rewrite !word_of_pad by lia. rewrite !key_word_l1 by lia.
    replace (4 * j + (8 * g + q))%nat with (8 * g + 4 * j + q)%nat by lia.
    replace (4 * j + (8 * g + q + 4))%nat with (8 * g + 4 * j + q + 4)%nat by lia. reflexivity. }
  rewrite !T by lia. reflexivity.
Qed.

Definition rfc_l1 (key : bytes) (j : nat) (c : bytes) : N :=
  Umac.add64 (Umac.NH (l1key key j) (Umac.zeropad c 32)) (8 * N.of_nat (length c)).

Lemma l1val_spec key j c : (j < 4)%nat -> (length c <= 1024)%nat ->
  l1val (L1Key (uhash_init key)) c j = rfc_l1 key j c.
Proof.
  intros Hj Hc. unfold l1val, rfc_l1. rewrite NH_spec by assumption. unfold Umac.add64. change (2 ^ 64) with U64.
  rewrite N.add_mod_idemp_l by discriminate. f_equal. apply N.add_comm.
Qed.

(** ** Chunks *)
Lemma chunk_len n : forall m c, In c (Umac.split_chunks n m) -> (length c <= 1024)%nat.
Proof.
  induction n as [|n IH]; intros m c H; cbn [Umac.split_chunks In] in H; [contradiction|].
  destruct H as [<-|H]; [rewrite firstn_length; lia|]. exact (IH _ _ H).
Qed.

Lemma readable_first mem base m : readable mem base m -> readable mem base (firstn 1024 m).
Proof.
  intros H p Hp. rewrite firstn_length in Hp. rewrite H by lia. f_equal. symmetry. apply four_firstn. lia.
Qed.

Lemma readable_rest mem base m : (1024 < length m)%nat -> readable mem base m -> readable mem (1024 + base) (skipn 1024 m).
Proof.
  intros HL H p Hp. rewrite skipn_length in Hp. replace (1024 + base + p)%nat with (base + (1024 + p))%nat by lia.
  rewrite H by lia. now rewrite four_skipn.
Qed.

Lemma l1_loop_spec K mem : length K = 268%nat -> forall n i m,
  readable mem (1024 * i) m -> n = Nat.max ((length m + 1023) / 1024) 1 ->
  l1_loop n i K mem (length m) = Ok (map (fun c => lanes (l1val K c)) (Umac.split_chunks n m)).
Proof.
  intro HK. induction n as [|n IH]; intros i m HR Hn; cbn [l1_loop Umac.split_chunks map]; [reflexivity|].
  replace (Nat.min (length m) 1024) with (length (firstn 1024 m)) by (rewrite firstn_length; lia).
  rewrite nh_spec; [|now apply readable_first|rewrite firstn_length; lia|exact HK]. cbn [bind].
  destruct n as [|n].
  - cbn [l1_loop Umac.split_chunks map bind]. reflexivity.
  - replace (length m - 1024)%nat with (length (skipn 1024 m)) by apply skipn_length.
    rewrite IH; [cbn [bind]; reflexivity| |].
    + replace (1024 * S i)%nat with (1024 + 1024 * i)%nat by lia. apply readable_rest; [lia|exact HR].
    + rewrite skipn_length. lia.
Qed.

Lemma l1hash_spec key mem m : readable mem 0 m ->
  l1hash (L1Key (uhash_init key)) mem (length m) =
  Ok (map (fun c => lanes (fun j => rfc_l1 key j c)) (Umac.chunks m)).
Proof.
  intro HR. unfold l1hash, Umac.chunks.
  rewrite (l1_loop_spec (L1Key (uhash_init key)) mem); [|cbn [uhash_init L1Key]; rewrite map_length; apply seq_length|exact HR|reflexivity].
  f_equal. apply map_ext_in. intros c Hc. apply chunk_len in Hc. apply lanes_ext. intros j Hj. now apply l1val_spec.
Qed.

(** ** The other keys *)
Lemma key32_bound key i : wf_bytes key -> key32 key i < U32.
Proof.
  intro H. unfold key32. eapply N.lt_le_trans; [apply be_val_bound; now apply wf_slice|].
  unfold slice. rewrite firstn_length. change U32 with (2 ^ (8 * N.of_nat 4)).
  apply N.pow_le_mono_r; lia.
Qed.

Lemma be_val_8 key o : (o + 8 <= length key)%nat ->
  be_val (slice key o 8) = be_val (slice key o 4) * U32 + be_val (slice key (o + 4) 4).
Proof.
  intro H. replace (slice key o 8) with (slice key o 4 ++ slice key (o + 4) 4).
  - rewrite be_val_app, length_slice by lia. reflexivity.
  - rewrite !slice_nth by lia. change (seq 0 8) with (seq 0 4 ++ map (Nat.add 4) (seq 0 4)).
    rewrite map_app, map_map. f_equal. apply map_ext. intro t. f_equal. lia.
Qed.

Lemma land_split a b c d : b < U32 -> d < U32 ->
  N.land (a * U32 + b) (c * U32 + d) = N.land a c * U32 + N.land b d.
Proof.
  intros Hb Hd.
  assert (Hbd : N.land b d < U32).
  { change U32 with (2 ^ 32). destruct (N.eq_dec (N.land b d) 0) as [E|E]; [rewrite E; reflexivity|].
    apply N.log2_lt_pow2; [lia|]. pose proof (N.log2_land b d).
    assert (N.log2 b < 32). { apply N.log2_lt_pow2; [|exact Hb]. destruct b; [|lia]. cbn in E. lia. } lia. }
  rewrite <- !join64_val by assumption. unfold join64. apply N.bits_inj. intro n.
  rewrite N.land_spec, !N.lor_spec, N.land_spec.
  assert (T : forall x, x < U32 -> 32 <= n -> N.testbit x n = false).
  { intros x Hx Hn. rewrite <- (N.mod_small x (2 ^ 32)) by exact Hx. apply N.mod_pow2_bits_high. exact Hn. }
  destruct (N.lt_ge_cases n 32) as [L|L].
  - rewrite !N.shiftl_spec_low by exact L. reflexivity.
  - rewrite !N.shiftl_spec_high' by exact L. rewrite (T b Hb L), (T d Hd L), N.land_spec, andb_false_l, !orb_false_r. reflexivity.
Qed.

Definition l2key (key : bytes) (j : nat) : bytes := Umac.substr (Umac.substr key 1072 96) (24 * j) 24.
Definition k64 (key : bytes) (j : nat) : N := N.land (be_val (Umac.substr (l2key key j) 0 8)) 0x01ffffff01ffffff.

Lemma l2key_spec key j : wf_bytes key -> length key = 1440%nat -> (j < 4)%nat ->
  nthN (L2Key (uhash_init key)) (3 * j) = k64 key j /\ short_key (k64 key j).
Proof.
  intros HW HL Hj. cbn [uhash_init L2Key]. rewrite nth_map_seq by lia.
  unfold k64, l2key. rewrite !substr_slice, !slice_slice by lia.
  assert (M : forall x, N.land x 0x01ffffff < 33554432).
  { intro x. rewrite (land_mask x 25 0x01ffffff eq_refl). change (2 ^ 25) with 33554432. apply N.mod_lt. discriminate. }
  assert (E : N.land (be_val (slice key (1072 + 24 * j + 0) 8)) 0x01ffffff01ffffff =
    N.land (key32 key (268 + 2 * (3 * j))) 0x01ffffff * U32 + N.land (key32 key (268 + 2 * (3 * j) + 1)) 0x01ffffff).
  { rewrite be_val_8 by lia. change 0x01ffffff01ffffff with (0x01ffffff * U32 + 0x01ffffff).
    rewrite land_split; [|exact (key32_bound key (268 + 2 * (3 * j) + 1) HW) || idtac|reflexivity].
    - unfold key32. replace (4 * (268 + 2 * (3 * j)))%nat with (1072 + 24 * j + 0)%nat by lia.
      replace (4 * (268 + 2 * (3 * j) + 1))%nat with (1072 + 24 * j + 0 + 4)%nat by lia. reflexivity.
    - pose proof (key32_bound key (268 + 2 * (3 * j) + 1) HW) as B. unfold key32 in B.
      replace (4 * (268 + 2 * (3 * j) + 1))%nat with (1072 + 24 * j + 0 + 4)%nat in B by lia. exact B. }
  rewrite Nat.add_assoc. rewrite E. pose proof (M (key32 key (268 + 2 * (3 * j) + 1))) as M1.
  pose proof (M (key32 key (268 + 2 * (3 * j)))) as M2.
  rewrite join64_val by (unfold U32; lia). split; [reflexivity|].
  remember (N.land (key32 key (268 + 2 * (3 * j) + 1)) 0x01ffffff) as lo eqn:E1.
  remember (N.land (key32 key (268 + 2 * (3 * j))) 0x01ffffff) as hi eqn:E2. clear -M1 M2.
  unfold short_key, U32 in *. split.
  - rewrite N.add_comm, N.div_add by discriminate. rewrite N.div_small; lia.
  - rewrite N.add_comm, N.mod_add by discriminate. rewrite N.mod_small; lia.
Qed.









(** ** The polynomial layer *)
Lemma rfc_l1_bound key j c : rfc_l1 key j c < U64.
Proof. unfold rfc_l1, Umac.add64. change (2 ^ 64) with U64. apply N.mod_lt. discriminate. Qed.

Lemma l2_step_spec K (y v : nat -> N) :
  (forall j, (j < 4)%nat -> short_key (nthN K (3 * j))) -> (forall j, v j < U64) -> (forall j, y j < U64) ->
  l2_step K (lanes y) (lanes v) =
  lanes (fun j => Umac.poly_step (2 ^ 64 - 2 ^ 32) (nthN K (3 * j)) (y j) (v j)).
Proof.
  intros HK Hv Hy. unfold l2_step, lanes at 3. apply map_ext_in. intros j Hj. apply in_seq in Hj.
  rewrite !nth_lanes by lia. apply l2add_spec; [apply Hy|apply Hv|apply HK; lia].
Qed.

Lemma l2_fold (F : list N -> list N -> list N) (v : nat -> bytes -> N) (P : nat -> N -> N -> N) :
  (forall y w, (forall j, w j < U64) -> (forall j, y j < U64) ->
     F (lanes y) (lanes w) = lanes (fun j => P j (y j) (w j))) ->
  (forall j a b, P j a b < U64) -> (forall j c, v j c < U64) ->
  forall cs y, (forall j, y j < U64) ->
  fold_left F (map (fun c => lanes (fun j => v j c)) cs) (lanes y) =
  lanes (fun j => fold_left (P j) (map (v j) cs) (y j)).
Proof.
  intros HS HP Hv. induction cs as [|c cs IH]; intros y Hy; cbn [map fold_left]; [reflexivity|].
  rewrite (HS y (fun j => v j c) (fun j => Hv j c) Hy).
  apply (IH (fun j => P j (y j) (v j c))). intro j. apply HP.
Qed.

Lemma l2hash_spec key m : wf_bytes key -> length key = 1440%nat -> N.of_nat (length (Umac.chunks m)) <= 16384 ->
  l2hash (L2Key (uhash_init key)) (map (fun c => lanes (fun j => rfc_l1 key j c)) (Umac.chunks m)) =
  Ok (lanes (fun j => Umac.L2_HASH (l2key key j) (Umac.L1_HASH (l1key key j) m))).
Proof.
  intros HW HL Hn. unfold l2hash. rewrite map_length.
  remember (128 * 128)%nat as lim eqn:El. assert (Hlim : N.of_nat lim = 16384) by (subst lim; reflexivity). clear El.
  destruct (Nat.ltb_spec lim (length (Umac.chunks m))) as [B|B]; [exfalso; lia|].
  f_equal. change [1; 1; 1; 1] with (lanes (fun _ => 1)).
  rewrite (l2_fold (l2_step (L2Key (uhash_init key))) (rfc_l1 key)
    (fun j => Umac.poly_step (2 ^ 64 - 2 ^ 32) (nthN (L2Key (uhash_init key)) (3 * j)))).
  - apply lanes_ext. intros j Hj. rewrite (proj1 (l2key_spec key j HW HL Hj)).
    unfold Umac.L2_HASH, Umac.POLY64, Umac.L1_HASH. fold (k64 key j). unfold rfc_l1. reflexivity.
  - intros y w Hw Hy. apply l2_step_spec; [|exact Hw|exact Hy].
    intros j Hj. destruct (l2key_spec key j HW HL Hj) as [E S]. rewrite E. exact S.
  - intros j x y. apply poly_step_bound.
  - intros j c. apply rfc_l1_bound.
  - intro j. reflexivity.
Qed.

(** ** The last layer *)
Lemma fold_mod_p36 {A} (f : A -> N) l : forall y,
  fold_left (fun y i => (y + f i) mod Umac.prime36) l (y mod Umac.prime36) = (y + sum (map f l)) mod Umac.prime36.
Proof.
  induction l as [|g l IH]; intro y; cbn [fold_left map sum]; [now rewrite N.add_0_r|].
  rewrite N.add_mod_idemp_l by discriminate. rewrite IH. f_equal. lia.
Qed.

Definition l3key1 (key : bytes) (j : nat) : bytes := Umac.substr (Umac.substr key 1168 256) (64 * j) 64.
Definition l3key2 (key : bytes) (j : nat) : bytes := Umac.substr (Umac.substr key 1424 16) (4 * j) 4.

Lemma l3key1_spec key j i : wf_bytes key -> length key = 1440%nat -> (j < 4)%nat -> (i < 8)%nat ->
  nthN (L3Key1 (uhash_init key)) (8 * j + i) = be_val (Umac.substr (l3key1 key j) (8 * i) 8) mod Umac.prime36.
Proof.
  intros HW HL Hj Hi. cbn [uhash_init L3Key1]. rewrite nth_map_seq by lia.
  unfold l3key1. rewrite !substr_slice, !slice_slice by lia. rewrite be_val_8 by lia.
  pose proof (key32_bound key (292 + 2 * (8 * j + i)) HW) as B1.
  pose proof (key32_bound key (292 + 2 * (8 * j + i) + 1) HW) as B2.
  rewrite join64_val by exact B2.
  rewrite mod_p36_spec.
  - f_equal. unfold key32. f_equal.
    + do 2 f_equal. f_equal. lia.
    + do 2 f_equal. lia.
  - clear -B1 B2. unfold U64, U32 in *. lia.
Qed.

Lemma l3key2_spec key j : (j < 4)%nat -> nthN (L3Key2 (uhash_init key)) j = be_val (l3key2 key j).
Proof.
  intro Hj. cbn [uhash_init L3Key2]. rewrite nth_map_seq by exact Hj.
  unfold l3key2, key32. change Umac.substr with slice. rewrite (slice_slice key 1424 16 (4 * j) 4) by lia.
  replace (1424 + 4 * j)%nat with (4 * (356 + j))%nat by lia. reflexivity.
Qed.

Lemma nth_be_bytes n M k : (k < n)%nat -> nth k (be_bytes n M) 0 = (M / 2 ^ (8 * N.of_nat (n - 1 - k))) mod 256.
Proof.
  revert k. induction n as [|n IH]; intros k Hk; [lia|]. cbn [be_bytes]. destruct k as [|k]; cbn [nth].
  - now replace (S n - 1 - 0)%nat with n by lia.
  - rewrite IH by lia. now replace (S n - 1 - S k)%nat with (n - 1 - k)%nat by lia.
Qed.

Lemma be_bytes_slice M i : (i < 8)%nat ->
  be_val (slice (be_bytes 16 M) (2 * i) 2) = (M / 2 ^ (16 * (7 - N.of_nat i))) mod 65536.
Proof.
  intro Hi. rewrite slice_nth by (rewrite be_bytes_length; lia). cbn [seq map].
  rewrite !nth_be_bytes by lia.
  replace (8 * N.of_nat (16 - 1 - (2 * i + 1))) with (16 * (7 - N.of_nat i)) by lia.
  replace (8 * N.of_nat (16 - 1 - (2 * i + 0))) with (16 * (7 - N.of_nat i) + 8) by lia.
  rewrite N.pow_add_r. change (2 ^ 8) with 256. rewrite <- N.div_div; [|apply N.pow_nonzero; discriminate|discriminate].
  remember (M / 2 ^ (16 * (7 - N.of_nat i))) as x eqn:E. clear.
  cbn [be_val length]. change (2 ^ (8 * N.of_nat 1)) with 256. change (2 ^ (8 * N.of_nat 0)) with 1. lia.
Qed.

Lemma lxor_mod a b n : N.lxor a b mod 2 ^ n = N.lxor (a mod 2 ^ n) (b mod 2 ^ n).
Proof.
  rewrite <- !N.land_ones. apply N.bits_inj. intro i. rewrite !N.land_spec, !N.lxor_spec, !N.land_spec.
  now destruct (N.testbit a i), (N.testbit b i), (N.testbit (N.ones n) i).
Qed.

Lemma l3hash_spec key j M : wf_bytes key -> length key = 1440%nat -> (j < 4)%nat -> M < U64 ->
  l3hash (L3Key1 (uhash_init key)) (8 * j) (nthN (L3Key2 (uhash_init key)) j) M =
  Umac.L3_HASH (l3key1 key j) (l3key2 key j) M.
Proof.
  intros HW HL Hj HM. unfold l3hash, Umac.L3_HASH. cbv zeta.
  rewrite !l3key1_spec by (assumption || lia). rewrite (l3key2_spec key j Hj).
  assert (HK2 : be_val (l3key2 key j) < 2 ^ 32).
  { rewrite <- (l3key2_spec key j Hj). cbn [uhash_init L3Key2]. rewrite nth_map_seq by exact Hj. exact (key32_bound key _ HW). }
  pose proof (fold_mod_p36 (fun i => be_val (Umac.substr (be_bytes 16 M) (2 * i) 2) *
     (be_val (Umac.substr (l3key1 key j) (8 * i) 8) mod Umac.prime36)) (seq 0 8) 0) as F.
  change (0 mod Umac.prime36) with 0 in F. cbv beta in F. rewrite F. clear F.
  cbn [seq map sum]. change (Umac.substr (be_bytes 16 M)) with (slice (be_bytes 16 M)).
  rewrite !be_bytes_slice by lia.
  rewrite !N.shiftr_div_pow2.
  assert (Z : forall i, (i < 4)%nat -> M / 2 ^ (16 * (7 - N.of_nat i)) mod 65536 = 0).
  { intros i Hi. rewrite N.div_small; [reflexivity|]. eapply N.lt_le_trans; [exact HM|].
    change U64 with (2 ^ 64). apply N.pow_le_mono_r; lia. }
  rewrite (Z 0%nat), (Z 1%nat), (Z 2%nat), (Z 3%nat) by lia.
  change (16 * (3 - N.of_nat (4 mod 4))) with 48. change (16 * (7 - N.of_nat 4)) with 48.
  change (16 * (3 - N.of_nat (5 mod 4))) with 32. change (16 * (7 - N.of_nat 5)) with 32.
  change (16 * (3 - N.of_nat (6 mod 4))) with 16. change (16 * (7 - N.of_nat 6)) with 16.
  change (16 * (3 - N.of_nat (7 mod 4))) with 0. change (16 * (7 - N.of_nat 7)) with 0.
  assert (P : forall x i, x mod 65536 * (be_val (Umac.substr (l3key1 key j) (8 * i) 8) mod Umac.prime36) < 2 ^ 52).
  { intros x i. change (2 ^ 52) with (65536 * 2 ^ 36). apply N.mul_lt_mono.
    - apply N.mod_lt. discriminate.
    - eapply N.lt_trans; [apply N.mod_lt; discriminate|reflexivity]. }
  pose proof (P (M / 2 ^ 48) 4%nat) as P4. pose proof (P (M / 2 ^ 32) 5%nat) as P5.
  pose proof (P (M / 2 ^ 16) 6%nat) as P6. pose proof (P (M / 2 ^ 0) 7%nat) as P7.
  remember ((M / 2 ^ 48) mod 65536 * (be_val (Umac.substr (l3key1 key j) (8 * 4) 8) mod Umac.prime36)) as t4 eqn:E4.
  remember ((M / 2 ^ 32) mod 65536 * (be_val (Umac.substr (l3key1 key j) (8 * 5) 8) mod Umac.prime36)) as t5 eqn:E5.
  remember ((M / 2 ^ 16) mod 65536 * (be_val (Umac.substr (l3key1 key j) (8 * 6) 8) mod Umac.prime36)) as t6 eqn:E6.
  remember ((M / 2 ^ 0) mod 65536 * (be_val (Umac.substr (l3key1 key j) (8 * 7) 8) mod Umac.prime36)) as t7 eqn:E7.
  clear E4 E5 E6 E7 P Z. change (2 ^ 52) with 4503599627370496 in *.
  rewrite !(N.mod_small t4), !(N.mod_small t5), !(N.mod_small t6), !(N.mod_small t7) by (unfold U64; lia).
  rewrite !N.mul_0_l, !N.add_0_l, N.add_0_r.
  rewrite (N.mod_small (t4 + t5)) by (unfold U64; lia).
  rewrite (N.mod_small (t4 + t5 + t6)) by (unfold U64; lia).
  rewrite (N.mod_small (t4 + t5 + t6 + t7)) by (unfold U64; lia).
  rewrite mod_p36_spec by (unfold U64; lia).
  replace (t4 + (t5 + (t6 + t7))) with (t4 + t5 + t6 + t7) by lia.
  change U32 with (2 ^ 32). rewrite lxor_mod. f_equal. now apply N.mod_small.
Qed.

(** ** The whole function *)
Lemma padded_readable m mem : m <> [] -> padded m mem -> readable mem 0 m.
Proof.
  intros Hm [post [E _]] p Hp. pose proof (length_pad16 m) as HL.
  assert (Hlen : (1 <= length m)%nat) by (destruct m; [congruence|cbn [length]; lia]).
  cbn [Nat.add].
  assert (HM : (p + 4 <= length mem)%nat) by (rewrite E, app_length, HL; lia).
  rewrite read_ok by exact HM. f_equal. rewrite four_slice by exact HM.
  rewrite E. unfold Gcm.pad16 in *. unfold four. apply map_ext_in. intros t Ht. apply in_seq in Ht.
  rewrite app_nth1 by (rewrite HL; lia). apply nth_pad.
Qed.

Lemma zero_readable : readable (repeat 0 16) 0 [].
Proof.
  intros p Hp. cbn [length] in Hp. change (16 * Nat.max ((0 + 15) / 16) 1)%nat with 16%nat in Hp. cbn [Nat.add].
  rewrite read_ok by (rewrite repeat_length; lia). f_equal.
  rewrite four_slice by (rewrite repeat_length; lia). unfold four. apply map_ext. intro t. exact (nth_pad [] 16 (p + t)).
Qed.

Lemma length_split_chunks n : forall m, length (Umac.split_chunks n m) = n.
Proof. induction n as [|n IH]; intro m; cbn [Umac.split_chunks length]; [reflexivity|]. now rewrite IH. Qed.

Lemma length_chunks m : length (Umac.chunks m) = Nat.max ((length m + 1023) / 1024) 1.
Proof. apply length_split_chunks. Qed.

Lemma flat_map_seq4 (f : nat -> bytes) g :
  (forall i, (i < 4)%nat -> f i = g i) -> flat_map f (seq 0 4) = flat_map g [0; 1; 2; 3]%nat.
Proof. intro H. cbn [seq flat_map]. now rewrite !H by lia. Qed.

Lemma uhash_l1 key m mem : padded m mem ->
  l1hash (L1Key (uhash_init key)) (if Nat.eqb (length m) 0 then repeat 0 16 else mem) (length m) =
  Ok (map (fun c => lanes (fun j => rfc_l1 key j c)) (Umac.chunks m)).
Proof.
  intro HP. apply l1hash_spec. destruct m as [|x m]; [exact zero_readable|].
  apply padded_readable; [discriminate|exact HP].
Qed.

Lemma POLY_bound K cs : forall y, y < U64 -> fold_left (Umac.poly_step (2 ^ 64 - 2 ^ 32) K) cs y < U64.
Proof. induction cs as [|c cs IH]; intros y Hy; cbn [fold_left]; [exact Hy|]. apply IH. apply poly_step_bound. Qed.

Lemma uhash_digest_spec key m mem :
  wf_bytes key -> length key = 1440%nat -> padded m mem -> N.of_nat (length m) <= 2 ^ 24 ->
  uhash_digest (uhash_init key) mem (length m) = Ok (Umac.UHASH key m).
Proof.
  intros HW HL HP Hm. unfold uhash_digest. cbv zeta. rewrite (uhash_l1 key m mem HP). cbn [bind].
  pose proof (length_chunks m) as HC. change (2 ^ 24) with 16777216 in Hm.
  destruct (Nat.leb_spec (Nat.max ((length m + 1023) / 1024) 1) 1) as [B|B].
  - cbn [bind]. f_equal. unfold Umac.UHASH. apply flat_map_seq4. intros i Hi. unfold Umac.iteration. cbv zeta.
    destruct (Nat.leb_spec (length m) 1024) as [L|L]; [|exfalso; lia].
    fold (l1key key i). fold (l2key key i). fold (l3key1 key i). fold (l3key2 key i).
    unfold Umac.L1_HASH.
    destruct (Umac.chunks m) as [|c cs]; [cbn [length] in HC; lia|]. cbn [map nth].
    rewrite nth_lanes by exact Hi. rewrite l3hash_spec; [reflexivity|assumption|assumption|assumption|apply rfc_l1_bound].
  - rewrite (l2hash_spec key m HW HL) by (rewrite HC; lia). cbn [bind].
    f_equal. unfold Umac.UHASH. apply flat_map_seq4. intros i Hi. unfold Umac.iteration. cbv zeta.
    destruct (Nat.leb_spec (length m) 1024) as [L|L]; [exfalso; lia|].
    fold (l1key key i). fold (l2key key i). fold (l3key1 key i). fold (l3key2 key i).
    rewrite nth_lanes by exact Hi. rewrite l3hash_spec; [reflexivity|assumption|assumption|assumption|].
    unfold Umac.L2_HASH, Umac.POLY64. apply POLY_bound. reflexivity.
Qed.

Lemma uhash_too_long key m mem :
  padded m mem -> 2 ^ 24 < N.of_nat (length m) ->
  uhash_digest (uhash_init key) mem (length m) = Bug.
Proof.
  intros HP Hm. unfold uhash_digest. cbv zeta. rewrite (uhash_l1 key m mem HP). cbn [bind].
  pose proof (length_chunks m) as HC. change (2 ^ 24) with 16777216 in Hm.
  destruct (Nat.leb_spec (Nat.max ((length m + 1023) / 1024) 1) 1) as [B|B]; [exfalso; lia|].
  unfold l2hash. rewrite map_length, HC.
  remember (128 * 128)%nat as lim eqn:El. assert (Hlim : N.of_nat lim = 16384) by (subst lim; reflexivity). clear El.
  destruct (Nat.ltb_spec lim (Nat.max ((length m + 1023) / 1024) 1)) as [C|C]; [reflexivity|exfalso; lia].
Qed.

(** ** The hash sees different inputs for different messages *)
Lemma zeropad_inj c1 c2 : length c1 = length c2 -> Umac.zeropad c1 32 = Umac.zeropad c2 32 -> c1 = c2.
Proof. intros HL E. unfold Umac.zeropad in E. rewrite HL in E. now apply app_inv_tail in E. Qed.

Lemma input_chunks n1 : forall n2 m1 m2,
  map (fun c => (Umac.zeropad c 32, length c)) (Umac.split_chunks n1 m1) =
  map (fun c => (Umac.zeropad c 32, length c)) (Umac.split_chunks n2 m2) ->
  (length m1 <= 1024 * n1)%nat -> (length m2 <= 1024 * n2)%nat -> m1 = m2.
Proof.
  induction n1 as [|n1 IH]; intros n2 m1 m2 E H1 H2; destruct n2 as [|n2]; cbn [Umac.split_chunks map] in E;
    try discriminate.
  - destruct m1, m2; cbn [length] in *; try lia. reflexivity.
  - assert (C : forall (a c : bytes * nat) b d, a :: b = c :: d -> a = c /\ b = d) by (intros a c b d X; now injection X).
    apply C in E as [E0 E3].
    pose proof (f_equal fst E0) as E1. pose proof (f_equal snd E0) as E2. cbn [fst snd] in E1, E2.
    apply zeropad_inj in E1; [|exact E2].
    pose proof (skipn_length 1024 m1) as K1. pose proof (skipn_length 1024 m2) as K2.
    assert (E4 : skipn 1024 m1 = skipn 1024 m2) by (apply (IH n2 _ _ E3); [rewrite K1|rewrite K2]; lia).
    rewrite <- (firstn_skipn 1024 m1), <- (firstn_skipn 1024 m2). now rewrite E1, E4.
Qed.

Lemma uhash_input_inj m1 m2 : Umac.input m1 = Umac.input m2 -> m1 = m2.
Proof.
  intro E. unfold Umac.input, Umac.chunks in E.
  refine (input_chunks _ _ m1 m2 E _ _).
  - clear E. remember (length m1) as n eqn:En. clear En. lia.
  - clear E. remember (length m2) as n eqn:En. clear En. lia.
Qed.
