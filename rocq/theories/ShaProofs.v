(** Proofs: SHA-256, HMAC, HKDF and constant-time comparison. *)
From Verif Require Import Base BaseLemmas BufferModel BufferProofs ShaModel ShaSpec.
Local Open Scope N_scope.

(** ** Words *)
Definition word (x : N) : Prop := x < W32.

Lemma W32_pow : W32 = 2 ^ 32. Proof. reflexivity. Qed.

Lemma lor_disjoint a b n : a < 2 ^ n -> N.lor a (b * 2 ^ n) = a + b * 2 ^ n.
Proof.
  intro Ha.
  assert (Hl : N.land a (b * 2 ^ n) = 0).
  { apply N.bits_inj. intro i. rewrite N.land_spec, N.bits_0.
    destruct (N.lt_ge_cases i n) as [Hi|Hi].
    - rewrite N.mul_pow2_bits_low by exact Hi. apply andb_false_r.
    - destruct (N.eq_dec a 0) as [->|Hz]; [now rewrite N.bits_0|].
      rewrite (N.bits_above_log2 a i); [reflexivity|].
      apply N.lt_le_trans with n; [|exact Hi]. apply N.log2_lt_pow2; lia. }
  rewrite <- N.lxor_lor by exact Hl. symmetry. now apply N.add_nocarry_lxor.
Qed.

Lemma rotr_ROTR x r : word x -> 0 < r < 32 -> rotr x r = Fips.ROTR r x.
Proof.
  unfold word, rotr, Fips.ROTR. rewrite W32_pow. intros Hx Hr.
  rewrite N.shiftr_div_pow2, N.shiftl_mul_pow2.
  assert (E : 2 ^ 32 = 2 ^ r * 2 ^ (32 - r)) by (rewrite <- N.pow_add_r; f_equal; lia).
  assert (P1 : 2 ^ r <> 0) by (apply N.pow_nonzero; lia).
  assert (P2 : 2 ^ (32 - r) <> 0) by (apply N.pow_nonzero; lia).
  rewrite E, N.mul_mod_distr_r by assumption.
  apply lor_disjoint. apply N.div_lt_upper_bound; [exact P1|]. lia.
Qed.

Lemma ROTR_word r x : word x -> 0 < r < 32 -> word (Fips.ROTR r x).
Proof.
  unfold word, Fips.ROTR. rewrite W32_pow. intros Hx Hr.
  assert (E : 2 ^ 32 = 2 ^ r * 2 ^ (32 - r)) by (rewrite <- N.pow_add_r; f_equal; lia).
  assert (P1 : 2 ^ r <> 0) by (apply N.pow_nonzero; lia).
  assert (A : x / 2 ^ r < 2 ^ (32 - r)) by (apply N.div_lt_upper_bound; [exact P1|lia]).
  assert (B : x mod 2 ^ r < 2 ^ r) by (apply N.mod_lt; exact P1).
  assert (C : (x mod 2 ^ r + 1) * 2 ^ (32 - r) <= 2 ^ r * 2 ^ (32 - r)) by (apply N.mul_le_mono_r; lia).
  lia.
Qed.

Lemma add32_plus a b : add32 a b = Fips.plus a b.
Proof. reflexivity. Qed.

Lemma plus_word a b : word (Fips.plus a b).
Proof. unfold word, Fips.plus. rewrite W32_pow. apply N.mod_lt. discriminate. Qed.

Lemma plus_comm a b : Fips.plus a b = Fips.plus b a.
Proof. unfold Fips.plus. f_equal. lia. Qed.

Lemma plus_assoc a b c : Fips.plus a (Fips.plus b c) = Fips.plus (Fips.plus a b) c.
Proof.
  unfold Fips.plus. rewrite N.add_mod_idemp_r, N.add_mod_idemp_l by discriminate. f_equal. lia.
Qed.

Lemma not32_complement x : word x -> not32 x = Fips.complement x.
Proof.
  unfold word, not32, Fips.complement. intro Hx. change (W32 - 1) with (N.ones 32).
  change (N.lxor x (N.ones 32)) with (N.lnot x 32).
  destruct (N.eq_dec x 0) as [->|Hz]; [reflexivity|].
  rewrite N.lnot_sub_low; [reflexivity|]. apply N.log2_lt_pow2; [lia|exact Hx].
Qed.

Lemma shiftr_SHR x n : N.shiftr x n = Fips.SHR n x.
Proof. apply N.shiftr_div_pow2. Qed.

Lemma lxor3 a b c : N.lxor (N.lxor a b) c = Fips.xor3 a b c.
Proof. unfold Fips.xor3. apply N.lxor_assoc. Qed.

Lemma lxor_below a b n : a < 2 ^ n -> b < 2 ^ n -> N.lxor a b < 2 ^ n.
Proof.
  intros Ha Hb. destruct (N.eq_dec (N.lxor a b) 0) as [E|E]; [rewrite E; lia|].
  apply N.log2_lt_pow2; [lia|]. eapply N.le_lt_trans; [apply N.log2_lxor|].
  destruct (N.eq_dec a 0) as [->|Za]; destruct (N.eq_dec b 0) as [->|Zb].
  - exfalso. apply E. reflexivity.
  - cbn [N.log2]. rewrite N.max_r by lia. apply N.log2_lt_pow2; lia.
  - rewrite N.max_l by (cbn [N.log2]; lia). apply N.log2_lt_pow2; lia.
  - apply N.max_lub_lt; apply N.log2_lt_pow2; lia.
Qed.

Definition all_words (l : list N) : Prop := Forall word l.

Lemma at_word l i : all_words l -> word (at_ l i).
Proof.
  intro H. unfold at_. destruct (Nat.lt_ge_cases i (length l)) as [Hi|Hi].
  - eapply (proj1 (Forall_forall _ _) H). now apply nth_In.
  - rewrite nth_overflow by exact Hi. reflexivity.
Qed.

(** ** Schedule *)
Lemma schedule_extend n : forall w,
  all_words w -> (16 <= length w)%nat ->
  rev (schedule n w) = Fips.extend n (rev w) /\ all_words (schedule n w) /\
  length (schedule n w) = (length w + n)%nat.
Proof.
  induction n as [|n IH]; intros w Hw Hl; cbn [schedule Fips.extend].
  - split; [reflexivity|]. split; [exact Hw|lia].
  - match goal with |- context [schedule n (w ++ [?x])] => remember x as nw eqn:Enw end.
    assert (Hn : nw = Fips.plus (Fips.sigma1 (nth 1 (rev w) 0)) (Fips.plus (nth 6 (rev w) 0)
       (Fips.plus (Fips.sigma0 (nth 14 (rev w) 0)) (nth 15 (rev w) 0)))).
    { rewrite !rev_nth by lia. rewrite Enw, !add32_plus, !lxor3, !shiftr_SHR.
      rewrite !rotr_ROTR by (try apply at_word; try exact Hw; lia).
      unfold Fips.sigma0, Fips.sigma1, at_.
      replace (length w - 2)%nat with (length w - S 1)%nat by lia.
      replace (length w - 7)%nat with (length w - S 6)%nat by lia.
      replace (length w - 15)%nat with (length w - S 14)%nat by lia.
      replace (length w - 16)%nat with (length w - S 15)%nat by lia.
      assert (T : forall a b c d, Fips.plus (Fips.plus (Fips.plus a b) c) d = Fips.plus d (Fips.plus c (Fips.plus b a))).
      { intros a b c d. rewrite (plus_comm (Fips.plus (Fips.plus a b) c) d), (plus_comm (Fips.plus a b) c), (plus_comm a b).
        reflexivity. }
      rewrite T. reflexivity. }
    assert (Hw' : all_words (w ++ [nw])).
    { apply Forall_app. split; [exact Hw|]. constructor; [rewrite Hn; apply plus_word|constructor]. }
    destruct (IH (w ++ [nw]) Hw' ltac:(rewrite app_length; cbn [length]; lia)) as [E1 [E2 E3]].
    rewrite rev_app_distr in E1. cbn [rev app] in E1.
    split; [rewrite E1; cbv zeta; cbn [Nat.sub]; now rewrite <- Hn|].
    split; [exact E2|]. rewrite E3, app_length. cbn [length]. lia.
Qed.

Lemma schedule_spec w :
  all_words w -> length w = 16%nat ->
  schedule 48 w = Fips.message_schedule w /\ all_words (schedule 48 w) /\ length (schedule 48 w) = 64%nat.
Proof.
  intros Hw Hl. destruct (schedule_extend 48 w Hw ltac:(lia)) as [E1 [E2 E3]].
  split; [|split; [exact E2|rewrite E3, Hl; reflexivity]].
  unfold Fips.message_schedule. rewrite <- E1. symmetry. apply rev_involutive.
Qed.

(** ** Rounds *)
Definition state_words (s : Fips.state) : Prop := all_words (Fips.to_list s).

Lemma round_step s ki wi :
  state_words s -> round (Fips.to_list s) ki wi = Fips.to_list (Fips.step s (ki, wi)) /\ state_words (Fips.step s (ki, wi)).
Proof.
  intro Hs.
  assert (H0 : word (Fips.sa s)) by (exact (at_word (Fips.to_list s) 0 Hs)).
  assert (H4 : word (Fips.se s)) by (exact (at_word (Fips.to_list s) 4 Hs)).
  split.
  - unfold round. cbn [Fips.to_list at_ nth]. unfold Fips.step.
    cbn [Fips.to_list Fips.sa Fips.sb Fips.sc Fips.sd Fips.se Fips.sf Fips.sg Fips.sh fst snd].
    change add32 with Fips.plus. rewrite !lxor3.
    rewrite !rotr_ROTR by (assumption || lia). rewrite !not32_complement by exact H4.
    fold (Fips.Sigma1 (Fips.se s)). fold (Fips.Sigma0 (Fips.sa s)).
    fold (Fips.Ch (Fips.se s) (Fips.sf s) (Fips.sg s)).
    fold (Fips.Maj (Fips.sa s) (Fips.sb s) (Fips.sc s)).
    change add32 with Fips.plus. cbn [Fips.to_list Fips.sa Fips.sb Fips.sc Fips.sd Fips.se Fips.sf Fips.sg Fips.sh].
    rewrite <- !plus_assoc. reflexivity.
  - unfold state_words, all_words, Fips.step, Fips.to_list. cbn [Fips.to_list Fips.sa Fips.sb Fips.sc Fips.sd Fips.se Fips.sf Fips.sg Fips.sh].
    unfold state_words, all_words, Fips.to_list in Hs.
    repeat match goal with H : Forall _ (_ :: _) |- _ => apply Forall_cons_iff in H; destruct H end.
    repeat (apply Forall_cons; [first [assumption | apply plus_word]|]). apply Forall_nil.
Qed.

Lemma rounds_fold n : forall i w s,
  (i + n = 64)%nat -> length w = 64%nat -> state_words s ->
  rounds n i w (Fips.to_list s) = Fips.to_list (fold_left Fips.step (combine (skipn i k) (skipn i w)) s) /\
  state_words (fold_left Fips.step (combine (skipn i k) (skipn i w)) s).
Proof.
  assert (Lk : length k = 64%nat) by reflexivity.
  induction n as [|n IH]; intros i w s Hi Hw Hs; cbn [rounds].
  - rewrite skipn_all2 by (rewrite Lk; lia). cbn [combine fold_left]. split; [reflexivity|exact Hs].
  - assert (Sk : forall l : list N, length l = 64%nat -> skipn i l = at_ l i :: skipn (S i) l).
    { intros l Hl. unfold at_. revert l Hl. clear -Hi.
      assert (G : forall i (l : list N), (i < length l)%nat -> skipn i l = nth i l 0 :: skipn (S i) l).
      { clear. induction i as [|i IH]; intros [|x l] H; cbn [length] in H; try lia; [reflexivity|].
        cbn [skipn nth]. rewrite IH by lia. reflexivity. }
      intros l Hl. apply G. lia. }
    rewrite (Sk k Lk), (Sk w Hw). cbn [combine fold_left].
    destruct (round_step s (at_ k i) (at_ w i) Hs) as [E1 E2]. rewrite E1.
    apply IH; [lia|exact Hw|exact E2].
Qed.

Lemma add_all_combine a b : length a = length b ->
  add_all a b = map (fun p => Fips.plus (fst p) (snd p)) (combine b a).
Proof.
  revert b; induction a as [|x a IH]; intros [|y b] H; cbn [length] in H; try discriminate; [reflexivity|].
  cbn [add_all combine map fst snd]. rewrite add32_plus, plus_comm. f_equal. apply IH. lia.
Qed.

Lemma K_table : k = Fips.K.
Proof. vm_compute. reflexivity. Qed.
Lemma H_table : h_init = Fips.H0.
Proof. vm_compute. reflexivity. Qed.

Definition hash_state (h : list N) : Prop := length h = 8%nat /\ all_words h.

Lemma to_of_list h : length h = 8%nat -> Fips.to_list (Fips.of_list h) = h.
Proof.
  destruct h as [|a0 [|a1 [|a2 [|a3 [|a4 [|a5 [|a6 [|a7 [|]]]]]]]]]; intro H; try discriminate. reflexivity.
Qed.

Lemma rounds_all w s :
  length w = 64%nat -> state_words s ->
  rounds 64 0 w (Fips.to_list s) = Fips.to_list (fold_left Fips.step (combine k w) s) /\
  state_words (fold_left Fips.step (combine k w) s).
Proof.
  intros Hw Hs. pose proof (rounds_fold 64 0 w s eq_refl Hw Hs) as R. rewrite !skipn_O in R. exact R.
Qed.

Lemma compress_generic h w ks s' v :
  length h = 8%nat -> v = Fips.to_list s' ->
  s' = fold_left Fips.step (combine ks w) (Fips.of_list h) ->
  add_all h v = map (fun p => Fips.plus (fst p) (snd p))
                  (combine (Fips.to_list (fold_left Fips.step (combine ks w) (Fips.of_list h))) h) /\
  hash_state (map (fun p => Fips.plus (fst p) (snd p))
                  (combine (Fips.to_list (fold_left Fips.step (combine ks w) (Fips.of_list h))) h)).
Proof.
  intros Hl Hv Hs. rewrite <- Hs, Hv. split.
  - apply add_all_combine. rewrite Hl. reflexivity.
  - split.
    + rewrite map_length, combine_length, Hl. reflexivity.
    + apply Forall_forall. intros x Hx. apply in_map_iff in Hx. destruct Hx as [p [<- _]]. apply plus_word.
Qed.

Lemma compress_model h w :
  hash_state h -> length w = 16%nat -> all_words w ->
  add_all h (rounds 64 0 (schedule 48 w) h) = Fips.compress h w /\ hash_state (Fips.compress h w).
Proof.
  intros [Hl Hh] Lw Hw. destruct (schedule_spec w Hw Lw) as [E1 [E2 E3]].
  assert (Hs : state_words (Fips.of_list h)) by (unfold state_words; rewrite to_of_list; assumption).
  destruct (rounds_all (schedule 48 w) (Fips.of_list h) E3 Hs) as [R1 R2].
  rewrite to_of_list in R1 by exact Hl. rewrite E1 in R1. rewrite E1.
  rewrite K_table in R1.
  exact (compress_generic h (Fips.message_schedule w) Fips.K _ _ Hl R1 eq_refl).
Qed.

(** ** The message as the code sees it *)
Definition byte_at (m : bytes) (j : nat) : N :=
  if Nat.ltb j (length m) then nth j m 0 else if Nat.eqb j (length m) then 128 else 0.
Definition four (m : bytes) (p : nat) : bytes :=
  [byte_at m p; byte_at m (p + 1); byte_at m (p + 2); byte_at m (p + 3)].

(** what the pointer for the block at position [base] must provide *)
Definition provides (m : bytes) (base : nat) (inp : option bytes) : Prop :=
  (base < length m)%nat ->
  exists mem, inp = Some mem /\ (Nat.min 32 (length m - base) <= length mem)%nat /\
    forall j, (j < 32)%nat -> (base + j < length m)%nat -> nth j mem 0 = nth (base + j) m 0.

Lemma nth_firstn_lt {A} (l : list A) n j d : (j < n)%nat -> nth j (firstn n l) d = nth j l d.
Proof.
  revert n j; induction l as [|x l IH]; intros [|n] [|j] H; cbn [firstn nth]; try lia; try reflexivity.
  apply IH. lia.
Qed.
Lemma nth_skipn_add {A} (l : list A) n j d : nth j (skipn n l) d = nth (n + j) l d.
Proof.
  revert n; induction l as [|x l IH]; intros [|n]; cbn [skipn nth Nat.add]; try reflexivity; [now destruct j|apply IH].
Qed.

Lemma slice_nth (l : bytes) o n : (o + n <= length l)%nat ->
  slice l o n = map (fun j => nth (o + j) l 0) (seq 0 n).
Proof.
  intro H. apply (nth_ext _ _ 0 (nth (o + 0) l 0)).
  - rewrite length_slice by exact H. now rewrite map_length, seq_length.
  - intros j Hj. rewrite length_slice in Hj by exact H.
    rewrite (map_nth (fun j => nth (o + j) l 0)), seq_nth by exact Hj. cbn [Nat.add].
    unfold slice. rewrite nth_firstn_lt by exact Hj. apply nth_skipn_add.
Qed.

Lemma byte_at_in m j : (j < length m)%nat -> byte_at m j = nth j m 0.
Proof. intro H. unfold byte_at. destruct (Nat.ltb_spec j (length m)); [reflexivity|lia]. Qed.
Lemma byte_at_end m j : j = length m -> byte_at m j = 128.
Proof.
  intro H. unfold byte_at. destruct (Nat.ltb_spec j (length m)); [lia|].
  destruct (Nat.eqb_spec j (length m)); [reflexivity|lia].
Qed.
Lemma byte_at_after m j : (length m < j)%nat -> byte_at m j = 0.
Proof.
  intro H. unfold byte_at. destruct (Nat.ltb_spec j (length m)); [lia|].
  destruct (Nat.eqb_spec j (length m)); [lia|reflexivity].
Qed.

Lemma be_val_4 a b c d : be_val [a; b; c; d] = a * 2 ^ 24 + b * 2 ^ 16 + c * 2 ^ 8 + d.
Proof. cbn [be_val length]. change (8 * N.of_nat 3) with 24. change (8 * N.of_nat 2) with 16.
  change (8 * N.of_nat 1) with 8. change (8 * N.of_nat 0) with 0. change (2 ^ 0) with 1. lia. Qed.

Lemma copy_words_spec m n : forall i base inp left,
  (i + n <= 8)%nat -> provides m base inp -> left = (Z.of_nat (length m) - Z.of_nat (base + 4 * i))%Z ->
  copy_words n i inp left =
    Ok (map (fun t => be_val (four m (base + 4 * t))) (seq i n), (left - 4 * Z.of_nat n)%Z).
Proof.
  induction n as [|n IH]; intros i base inp left Hi Hp Hleft; cbn [copy_words seq map].
  - do 2 f_equal. lia.
  - assert (Hw : (if (4 <=? left)%Z then
                 match inp with
                 | Some m => do d <- read m (4 * i) 4; Ok (be_val d)
                 | None => UB
                 end
               else if (0 <? left)%Z then
                 match inp with
                 | Some m =>
                     do d <- read m (4 * i) (Z.to_nat left);
                     Ok (N.lor (be_val (d ++ repeat 0 (4 - Z.to_nat left)))
                               (N.shiftr 2147483648 (Z.to_N (left * 8))))
                 | None => UB
                 end
               else if (left =? 0)%Z then Ok 2147483648
               else Ok 0) = Ok (be_val (four m (base + 4 * i)))).
    { unfold four. destruct (Z.leb_spec 4 left) as [L|L].
      - destruct Hp as [mem [-> [Lm Hn]]]; [lia|]. rewrite read_ok by lia. cbn [bind].
        rewrite slice_nth by lia. cbn [seq map].
        rewrite !byte_at_in by lia. rewrite !Hn by lia.
        replace (base + (4 * i + 0))%nat with (base + 4 * i)%nat by lia. rewrite !Nat.add_assoc. reflexivity.
      - destruct (Z.ltb_spec 0 left) as [L0|L0].
        + destruct Hp as [mem [-> [Lm Hn]]]; [lia|]. rewrite read_ok by lia. cbn [bind].
          rewrite slice_nth by lia.
          assert (C : (left = 1 \/ left = 2 \/ left = 3)%Z) by lia.
          destruct C as [E|[E|E]]; rewrite E.
          * change (Z.to_nat 1) with 1%nat. cbn [seq map app Nat.sub repeat].
            change (N.shiftr 2147483648 (Z.to_N (1 * 8))) with (2 ^ 23).
            rewrite (byte_at_in m (base + 4 * i)), (byte_at_end m (base + 4 * i + 1)),
              (byte_at_after m (base + 4 * i + 2)), (byte_at_after m (base + 4 * i + 3)) by lia.
            rewrite Hn by lia. rewrite !be_val_4. replace (base + (4 * i + 0))%nat with (base + 4 * i)%nat by lia.
            f_equal. rewrite N.lor_comm.
            match goal with |- N.lor _ ?x = _ => replace x with (nth (base + 4 * i) m 0 * 2 ^ 24) by lia end.
            rewrite lor_disjoint by reflexivity. lia.
          * change (Z.to_nat 2) with 2%nat. cbn [seq map app Nat.sub repeat].
            change (N.shiftr 2147483648 (Z.to_N (2 * 8))) with (2 ^ 15).
            rewrite (byte_at_in m (base + 4 * i)), (byte_at_in m (base + 4 * i + 1)),
              (byte_at_end m (base + 4 * i + 2)), (byte_at_after m (base + 4 * i + 3)) by lia.
            rewrite !Hn by lia. rewrite !be_val_4. replace (base + (4 * i + 0))%nat with (base + 4 * i)%nat by lia.
            rewrite !Nat.add_assoc. f_equal. rewrite N.lor_comm.
            match goal with |- N.lor _ ?x = _ => replace x with ((nth (base + 4 * i) m 0 * 2 ^ 8 + nth (base + 4 * i + 1) m 0) * 2 ^ 16) by lia end.
            rewrite lor_disjoint by reflexivity. lia.
          * change (Z.to_nat 3) with 3%nat. cbn [seq map app Nat.sub repeat].
            change (N.shiftr 2147483648 (Z.to_N (3 * 8))) with (2 ^ 7).
            rewrite (byte_at_in m (base + 4 * i)), (byte_at_in m (base + 4 * i + 1)),
              (byte_at_in m (base + 4 * i + 2)), (byte_at_end m (base + 4 * i + 3)) by lia.
            rewrite !Hn by lia. rewrite !be_val_4. replace (base + (4 * i + 0))%nat with (base + 4 * i)%nat by lia.
            rewrite !Nat.add_assoc. f_equal. rewrite N.lor_comm.
            match goal with |- N.lor _ ?x = _ => replace x with
              ((nth (base + 4 * i) m 0 * 2 ^ 16 + nth (base + 4 * i + 1) m 0 * 2 ^ 8 + nth (base + 4 * i + 2) m 0) * 2 ^ 8) by lia end.
            rewrite lor_disjoint by reflexivity. lia.
        + destruct (Z.eqb_spec left 0) as [E|E].
          * rewrite (byte_at_end m (base + 4 * i)), !byte_at_after by lia. reflexivity.
          * rewrite !byte_at_after by lia. reflexivity. }
    rewrite Hw. cbn [bind]. rewrite (IH (S i) base inp (left - 4)%Z) by (try exact Hp; lia). cbn [bind].
    do 2 f_equal. lia.
Qed.

(** ** The padded message *)
Definition body (m : bytes) : bytes := m ++ [128] ++ repeat 0 (Fips.zero_count (length m)).

Lemma pad_body m : Fips.pad m = body m ++ be_bytes 8 (8 * N.of_nat (length m)).
Proof. unfold Fips.pad, body. now rewrite <- !app_assoc. Qed.

Lemma length_body m : (length (body m) = length m + 1 + Fips.zero_count (length m))%nat.
Proof. unfold body. rewrite !app_length, repeat_length. cbn [length]. lia. Qed.

Definition nblocks (len : nat) : nat := ((len + 8) / 64 + 1)%nat.

Lemma total_length len : (len + 1 + Fips.zero_count len + 8 = 64 * nblocks len)%nat.
Proof. unfold Fips.zero_count, nblocks. lia. Qed.

Lemma length_pad m : length (Fips.pad m) = (64 * nblocks (length m))%nat.
Proof. rewrite pad_body, app_length, length_body, be_bytes_length. apply total_length. Qed.

Lemma nth_body m j : (j < length (body m))%nat -> nth j (body m) 0 = byte_at m j.
Proof.
  intro Hj. unfold body. destruct (Nat.lt_ge_cases j (length m)) as [H|H].
  - rewrite app_nth1 by exact H. now rewrite byte_at_in.
  - rewrite app_nth2 by exact H. cbn [app].
    destruct (j - length m)%nat as [|d] eqn:E; cbn [nth].
    + rewrite byte_at_end by lia. reflexivity.
    + rewrite byte_at_after by lia. apply nth_repeat.
Qed.


(** ** The padded message, word by word *)
Lemma four_slice m p : (p + 4 <= length (body m))%nat -> slice (Fips.pad m) p 4 = four m p.
Proof.
  intro H. rewrite pad_body. rewrite slice_app_l by exact H. rewrite slice_nth by exact H.
  cbn [seq map]. rewrite !nth_body by lia. unfold four. rewrite Nat.add_0_r. reflexivity.
Qed.

Lemma words_slices n : forall b, Fips.words n b = map (fun t => be_val (slice b (4 * t) 4)) (seq 0 n).
Proof.
  induction n as [|n IH]; intro b; cbn [Fips.words seq map]; [reflexivity|].
  f_equal. rewrite IH, <- seq_shift, map_map. apply map_ext. intro t.
  f_equal. rewrite skipn_slice. f_equal. lia.
Qed.

Lemma len_word_high len : N.of_nat len < 2 ^ 29 ->
  be_bytes 8 (8 * N.of_nat len) = [0; 0; 0; 0] ++ be_bytes 4 (8 * N.of_nat len).
Proof.
  intro H. remember (8 * N.of_nat len) as x eqn:E. assert (Hx : x < 2 ^ 32) by (rewrite E; lia). clear E H.
  apply be_val_inj.
  - apply be_bytes_wf.
  - apply wf_app. split; [|apply be_bytes_wf]. repeat (apply wf_cons; split; [reflexivity|]). apply wf_nil.
  - rewrite app_length, !be_bytes_length. reflexivity.
  - rewrite be_val_app, !be_val_be_bytes. change (be_val [0; 0; 0; 0]) with 0.
    change (8 * N.of_nat 8) with 64. change (8 * N.of_nat 4) with 32.
    rewrite !N.mod_small by lia. lia.
Qed.

(** the 16 words the code prepares for block [j] *)
Definition code_words (m : bytes) (j : nat) : list N :=
  let w := map (fun t => be_val (four m (64 * j + 4 * t))) (seq 0 16) in
  if Nat.eqb (S j) (nblocks (length m)) then firstn 15 w ++ [8 * N.of_nat (length m)] else w.

Lemma nblocks_bound m j : (j < nblocks (length m))%nat -> (64 * j + 56 <= length (body m))%nat.
Proof. intro H. pose proof (total_length (length m)). rewrite length_body. lia. Qed.

Lemma code_words_spec m j : N.of_nat (length m) < 2 ^ 29 -> (j < nblocks (length m))%nat ->
  code_words m j = Fips.words 16 (skipn (64 * j) (Fips.pad m)).
Proof.
  intros Hl Hj. pose proof (total_length (length m)) as T. pose proof (length_body m) as LB.
  assert (Low : forall n, (64 * j + 4 * n <= length (body m))%nat ->
     map (fun t => be_val (four m (64 * j + 4 * t))) (seq 0 n) =
     map (fun t => be_val (slice (skipn (64 * j) (Fips.pad m)) (4 * t) 4)) (seq 0 n)).
  { intros n Hn. apply map_ext_in. intros t Ht. apply in_seq in Ht.
    rewrite skipn_slice, four_slice by lia. reflexivity. }
  unfold code_words. rewrite words_slices. cbv zeta.
  destruct (Nat.eqb_spec (S j) (nblocks (length m))) as [E|E].
  - change (seq 0 16) with (seq 0 14 ++ [14; 15]%nat). rewrite !map_app.
    rewrite (Low 14%nat) by lia. cbn [map].
    remember (map (fun t => be_val (slice (skipn (64 * j) (Fips.pad m)) (4 * t) 4)) (seq 0 14)) as l14 eqn:E14.
    assert (L14 : length l14 = 14%nat) by (rewrite E14, map_length; reflexivity).
    replace 15%nat with (length l14 + 1)%nat by (rewrite L14; reflexivity).
    rewrite firstn_app_2. cbn [firstn]. rewrite <- app_assoc. f_equal. cbn [app].
    rewrite L14. change (4 * 14)%nat with 56%nat. change (4 * (14 + 1))%nat with 60%nat.
    rewrite !skipn_slice, pad_body.
    rewrite !slice_app_r by lia. rewrite LB, len_word_high by exact Hl.
    replace (64 * j + 56 - _)%nat with 0%nat by lia. replace (64 * j + 60 - _)%nat with 4%nat by lia.
    f_equal; [|f_equal].
    + unfold four. rewrite !byte_at_after by lia. reflexivity.
    + rewrite slice_app_r by (cbn [length]; lia). cbn [length Nat.sub].
      pose proof (slice_all (be_bytes 4 (8 * N.of_nat (length m)))) as SA. rewrite be_bytes_length in SA.
      rewrite SA, be_val_be_bytes. change (8 * N.of_nat 4) with 32. rewrite N.mod_small by lia. reflexivity.
  - apply (Low 16%nat). lia.
Qed.

Lemma byte_at_wf m j : wf_bytes m -> byte_at m j < 256.
Proof.
  intro H. unfold byte_at. destruct (Nat.ltb_spec j (length m)) as [L|L].
  - apply (proj1 (Forall_forall _ _) H). now apply nth_In.
  - destruct (Nat.eqb_spec j (length m)); reflexivity.
Qed.

Lemma code_words_ok m j : wf_bytes m -> N.of_nat (length m) < 2 ^ 29 ->
  length (code_words m j) = 16%nat /\ all_words (code_words m j).
Proof.
  intros Hwf Hl.
  assert (W : all_words (map (fun t => be_val (four m (64 * j + 4 * t))) (seq 0 16))).
  { apply Forall_forall. intros x Hx. apply in_map_iff in Hx. destruct Hx as [t [<- _]].
    unfold word, four. rewrite W32_pow.
    apply (be_val_bound [byte_at m (64 * j + 4 * t); byte_at m (64 * j + 4 * t + 1);
                         byte_at m (64 * j + 4 * t + 2); byte_at m (64 * j + 4 * t + 3)]).
    repeat (apply wf_cons; split; [apply byte_at_wf; exact Hwf|]). apply wf_nil. }
  unfold code_words. cbv zeta. destruct (Nat.eqb (S j) _).
  - split; [reflexivity|]. apply Forall_app. split.
    + apply Forall_forall. intros x Hx. apply (proj1 (Forall_forall _ _) W).
      rewrite <- (firstn_skipn 15). apply in_or_app. left. exact Hx.
    + constructor; [|constructor]. unfold word. rewrite W32_pow. lia.
  - split; [reflexivity|exact W].
Qed.

(** ** The main loop *)
Definition pointers_ok (m : bytes) (ins : list bytes) : Prop :=
  forall i, provides m (32 * i) (nth_error ins i).

Lemma loop_spec m ins : wf_bytes m -> N.of_nat (length m) < 2 ^ 29 -> pointers_ok m ins ->
  forall d j fuel h, (j + d = nblocks (length m))%nat -> (d <= fuel)%nat -> hash_state h ->
  sha256_loop fuel h ins (2 * j) (Z.of_nat (length m) - 64 * Z.of_nat j)%Z (8 * N.of_nat (length m)) =
    Ok (fold_left Fips.compress (Fips.blocks d (skipn (64 * j) (Fips.pad m))) h, (2 * nblocks (length m))%nat).
Proof.
  intros Hwf Hl Hp. induction d as [|d IH]; intros j fuel h Hj Hf Hh.
  - assert (B : (Z.of_nat (length m) - 64 * Z.of_nat j < -8)%Z) by (unfold nblocks in Hj; lia).
    destruct fuel; cbn [sha256_loop Fips.blocks fold_left];
      (destruct (Z.ltb_spec (Z.of_nat (length m) - 64 * Z.of_nat j) (-8)); [|lia]);
      rewrite <- Hj; do 2 f_equal; lia.
  - destruct fuel as [|fuel]; [lia|].
    cbn [sha256_loop].
    destruct (Z.ltb_spec (Z.of_nat (length m) - 64 * Z.of_nat j) (-8)) as [B|B]; [unfold nblocks in Hj; lia|].
    rewrite (copy_words_spec m 8 0 (32 * (2 * j))) by (try apply Hp; lia). cbn [bind].
    rewrite (copy_words_spec m 8 0 (32 * (2 * j + 1))) by (try apply Hp; lia). cbn [bind]. cbv zeta.
    match goal with |- context [map ?f (seq 0 8) ++ map ?g (seq 0 8)] =>
      replace (map f (seq 0 8) ++ map g (seq 0 8)) with (map (fun t => be_val (four m (64 * j + 4 * t))) (seq 0 16)) end.
    2:{ change (seq 0 16) with (seq 0 8 ++ seq 8 8). rewrite map_app. f_equal.
        - apply map_ext. intro t. do 2 f_equal. lia.
        - change (seq 8 8) with (map (fun t => 8 + t)%nat (seq 0 8)). rewrite map_map. apply map_ext. intro t. do 2 f_equal. lia. }
    match goal with |- context [(?l <? -8)%Z] => replace (l <? -8)%Z with (Nat.eqb (S j) (nblocks (length m))) end.
    2:{ pose proof (total_length (length m)). unfold nblocks in *. lia. }
    fold (code_words m j).
    destruct (code_words_ok m j Hwf Hl) as [W1 W2].
    destruct (compress_model h (code_words m j) Hh W1 W2) as [C1 C2].
    change (if Nat.eqb (S j) (nblocks (length m))
            then firstn 15 (map (fun t => be_val (four m (64 * j + 4 * t))) (seq 0 16)) ++ [8 * N.of_nat (length m)]
            else map (fun t => be_val (four m (64 * j + 4 * t))) (seq 0 16)) with (code_words m j).
    rewrite C1. cbn [Fips.blocks fold_left].
    rewrite <- (code_words_spec m j) by (assumption || lia).
    replace (2 * j + 2)%nat with (2 * S j)%nat by lia.
    match goal with |- sha256_loop _ _ _ _ ?l _ = _ =>
      replace l with (Z.of_nat (length m) - 64 * Z.of_nat (S j))%Z by lia end.
    rewrite <- skipn_add. replace (64 * j + 64)%nat with (64 * S j)%nat by lia.
    apply IH; [lia|lia|exact C2].
Qed.

Lemma h_init_state : hash_state h_init.
Proof. split; [reflexivity|]. repeat (apply Forall_cons; [reflexivity|]). apply Forall_nil. Qed.

Lemma sha256_list_spec m ins : wf_bytes m -> N.of_nat (length m) < 2 ^ 29 -> pointers_ok m ins ->
  sha256_list ins (length m) = Ok (Fips.sha256 m, (2 * ((length m + 8) / 64 + 1))%nat).
Proof.
  intros Hwf Hl Hp. unfold sha256_list.
  rewrite N.shiftl_mul_pow2. change (2 ^ 3) with 8.
  rewrite N.mod_small by (rewrite W32_pow; lia).
  replace (N.of_nat (length m) * 8) with (8 * N.of_nat (length m)) by lia.
  pose proof (loop_spec m ins Hwf Hl Hp (nblocks (length m)) 0 (S (S (length m / 64))) h_init eq_refl
                ltac:(unfold nblocks; lia) h_init_state) as L.
  change (2 * 0)%nat with 0%nat in L. rewrite Z.mul_0_r, Z.sub_0_r in L. change (64 * 0)%nat with 0%nat in L.
  rewrite skipn_O in L. rewrite L. cbn [bind]. unfold Fips.sha256.
  rewrite length_pad, (Nat.mul_comm 64), Nat.div_mul by discriminate. rewrite H_table. reflexivity.
Qed.
