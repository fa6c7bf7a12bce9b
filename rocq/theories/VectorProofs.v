(** Lemmas about dynamically sized arrays. *)
From Verif Require Import Base BaseLemmas BufferModel VectorModel VectorSpec.
Local Open Scope N_scope.

Lemma W_pow : W = 2 ^ 64. Proof. reflexivity. Qed.

Lemma pow_lt_W : forall k, 2 ^ k < W -> k < 64.
Proof.
  intros k H. rewrite W_pow in H. apply N.pow_lt_mono_r_iff in H; lia.
Qed.

Lemma grow_spec : forall f k n, k < 64 -> (64 <= k + N.of_nat f) ->
  match grow (S f) (2 ^ k) n with
  | Some a => exists j, k <= j /\ j < 64 /\ a = 2 ^ j /\ n <= a /\ (a = 2 ^ k \/ a < 2 * n)
  | None => 2 ^ 63 < n
  end.
Proof.
  induction f as [|f IH]; intros k n Hk Hf; [lia|].
  change (grow (S (S f)) (2 ^ k) n) with
    (if n <=? 2 ^ k then Some (2 ^ k) else let a := (2 ^ k * 2) mod W in if a =? 0 then None else grow (S f) a n).
  destruct (n <=? 2 ^ k) eqn:E.
  - exists k. apply N.leb_le in E. split; [lia|]. split; [exact Hk|]. split; [reflexivity|]. split; [exact E|]. now left.
  - apply N.leb_gt in E. cbv zeta.
    assert (Hd : 2 ^ k * 2 = 2 ^ (k + 1)) by (rewrite N.pow_add_r; reflexivity).
    rewrite Hd. destruct (N.eq_dec k 63) as [->|Hn].
    + change (2 ^ (63 + 1)) with W. rewrite N.mod_same by discriminate. exact E.
    + assert (Hk' : k + 1 < 64) by lia.
      rewrite N.mod_small by (rewrite W_pow; apply N.pow_lt_mono_r; lia).
      assert (Hnz : 2 ^ (k + 1) <> 0) by (apply N.pow_nonzero; discriminate).
      destruct (2 ^ (k + 1) =? 0) eqn:E0; [apply N.eqb_eq in E0; contradiction|].
      specialize (IH (k + 1) n Hk' ltac:(lia)).
      destruct (grow (S f) (2 ^ (k + 1)) n) as [a|]; [|exact IH].
      destruct IH as (j & H1 & H2 & H3 & H4 & H5). exists j. split; [lia|]. split; [lia|]. split; [exact H3|]. split; [exact H4|].
      right. destruct H5 as [->|H5]; [|exact H5]. rewrite <- Hd. lia.
Qed.

(** Once the loop has stopped, more fuel changes nothing. *)
Lemma grow_more : forall f g k n, k < 64 -> 64 <= k + N.of_nat f -> (f <= g)%nat -> grow (S g) (2 ^ k) n = grow (S f) (2 ^ k) n.
Proof.
  induction f as [|f IH]; intros g k n Hk Hf Hg; [lia|].
  destruct g as [|g]; [lia|].
  change (grow (S (S f)) (2 ^ k) n) with
    (if n <=? 2 ^ k then Some (2 ^ k) else let a := (2 ^ k * 2) mod W in if a =? 0 then None else grow (S f) a n).
  change (grow (S (S g)) (2 ^ k) n) with
    (if n <=? 2 ^ k then Some (2 ^ k) else let a := (2 ^ k * 2) mod W in if a =? 0 then None else grow (S g) a n).
  destruct (n <=? 2 ^ k); [reflexivity|]. cbv zeta.
  assert (Hd : 2 ^ k * 2 = 2 ^ (k + 1)) by (rewrite N.pow_add_r; reflexivity).
  rewrite Hd. destruct (N.eq_dec k 63) as [->|Hn].
  - change (2 ^ (63 + 1)) with W. rewrite N.mod_same by discriminate. reflexivity.
  - rewrite N.mod_small by (rewrite W_pow; apply N.pow_lt_mono_r; lia).
    destruct (2 ^ (k + 1) =? 0); [reflexivity|]. apply IH; lia.
Qed.

Section V.
Context {A : Type}.
Implicit Types (v : vec A) (l : list (option A)) (d : list (option A)).

(** What is true of a vector at any time. *)
Definition inv v : Prop :=
  N.of_nat (length (v_data v)) = v_alloc v /\ v_len v <= v_alloc v /\ v_alloc v < 2 ^ 32 /\ alloc_ok (v_alloc v).

Lemma inv_empty : inv empty.
Proof. repeat split; cbn; try lia. now left. Qed.

Lemma realloc_ok : forall ok es d m,
  match realloc ok es d m with
  | Ok d' => m < 2 ^ 32 /\ d' = firstn (N.to_nat m) d ++ repeat None (N.to_nat m - length d)
  | Fatal => 2 ^ 32 <= m \/ 2 ^ 32 <= es \/ ok = false
  | _ => False
  end.
Proof.
  intros ok es d m. unfold realloc.
  destruct (2 ^ 32 - 1 <? m) eqn:E1; cbn [orb]; [left; lia|].
  destruct (2 ^ 32 - 1 <? es) eqn:E2; cbn [orb]; [right; left; lia|].
  destruct (W - 1 <? m * es) eqn:E3; cbn [orb].
  - exfalso. apply N.ltb_ge in E1, E2. apply N.ltb_lt in E3. change (W - 1) with 18446744073709551615 in E3.
    change (2 ^ 32 - 1) with 4294967295 in *. nia.
  - destruct ok; cbn [negb]; [|right; right; reflexivity]. split; [lia|reflexivity].
Qed.

(** Resizing keeps the cells that exist before and after it. *)
Lemma resize_ok : forall ok es v n, inv v -> n * 3 < W ->
  match resize ok es v n with
  | Ok v' => inv v' /\ v_len v' = n /\ v_alloc v <= v_alloc v' /\ v_alloc v' <= N.max (N.max 4 (v_alloc v)) (3 * n) /\
             v_data v' = v_data v ++ repeat None (length (v_data v') - length (v_data v)) /\
             (length (v_data v) <= length (v_data v'))%nat
  | Fatal => 2 ^ 32 <= 3 * n \/ 2 ^ 32 <= es \/ ok = false
  | _ => False
  end.
Proof.
  intros ok es v n (I1 & I2 & I3 & I4) Hn. unfold resize.
  assert (G : exists k w, 2 <= k /\ k < 64 /\ n <= w /\ 2 * w <= 3 * n + (if v_alloc v =? 0 then 0 else 2 * n) /\
              (if v_alloc v =? 0 then (MIN_VECTOR_ALLOC, (n * 3) mod W / 2) else (v_alloc v, n)) = (2 ^ k, w) /\
              (v_alloc v = 0 /\ k = 2 \/ v_alloc v = 2 ^ k) /\ 2 * w <= 3 * n).
  { destruct I4 as [E|(k & K1 & K2)].
    - exists 2, (n * 3 / 2). rewrite E. cbn [N.eqb]. rewrite (N.mod_small _ _ Hn).
      assert (2 * (n * 3 / 2) <= n * 3) by (apply N.mul_div_le; lia).
      assert (n <= n * 3 / 2) by (apply N.div_le_lower_bound; lia).
      split; [lia|]. split; [lia|]. split; [lia|]. split; [lia|]. split; [reflexivity|]. split; [now left|lia].
    - exists k, n. assert (v_alloc v <> 0) by (rewrite K2; apply N.pow_nonzero; discriminate).
      replace (v_alloc v =? 0) with false by (symmetry; apply N.eqb_neq; assumption).
      assert (k < 64) by (apply pow_lt_W; rewrite <- K2; change W with 18446744073709551616; lia).
      split; [lia|]. split; [lia|]. split; [lia|]. split; [lia|]. split; [now rewrite K2|]. split; [now right|lia]. }
  destruct G as (k & w & K1 & K2 & K3 & _ & -> & K5 & K6).
  pose proof (grow_spec 64 k w K2 ltac:(lia)) as Hg.
  destruct (grow 65 (2 ^ k) w) as [a|]; [|change (2 ^ 63) with (2 ^ 31 * 2 ^ 32) in Hg; lia].
  destruct Hg as (j & J1 & J2 & J3 & J4 & J5).
  assert (Hka : 2 ^ k <= a) by (rewrite J3; apply N.pow_le_mono_r; lia).
  assert (H4 : 4 <= 2 ^ k) by (change 4 with (2 ^ 2); apply N.pow_le_mono_r; lia).
  assert (H5 : 2 ^ k <= N.max 4 (v_alloc v)).
  { destruct K5 as [(_ & ->)|K5]; [change (2 ^ 2) with 4; lia|lia]. }
  destruct (a =? v_alloc v) eqn:E.
  - apply N.eqb_eq in E. cbn [v_len v_alloc v_data].
    split; [|split; [|split; [|split; [|split]]]]; try lia.
    + repeat split; cbn [v_len v_alloc v_data]; try lia. rewrite E. exact I4.
    + rewrite Nat.sub_diag. cbn [repeat]. now rewrite app_nil_r.
  - apply N.eqb_neq in E. pose proof (realloc_ok ok es (v_data v) a) as Hr.
    destruct (realloc ok es (v_data v) a) as [d| | |]; try contradiction; cbn [bind].
    + destruct Hr as (R1 & R2).
      assert (Hlt : (length (v_data v) <= N.to_nat a)%nat) by (destruct K5 as [(K5 & _)|K5]; lia).
      assert (Hd : d = v_data v ++ repeat None (N.to_nat a - length (v_data v))).
      { rewrite R2. now rewrite firstn_all2 by lia. }
      assert (Hl : length d = N.to_nat a) by (rewrite Hd, app_length, repeat_length; lia).
      cbn [v_len v_alloc v_data].
      split; [|split; [|split; [|split; [|split]]]]; try lia.
      * repeat split; cbn [v_len v_alloc v_data]; try lia. right. exists j. split; [lia|exact J3].
      * rewrite Hl. exact Hd.
    + destruct Hr as [Hr|Hr]; [left|right; exact Hr]. lia.
Qed.

Lemma nth_error_firstn_lt : forall (B : Type) (l : list B) n i, (i < n)%nat -> nth_error (firstn n l) i = nth_error l i.
Proof.
  intros B l. induction l as [|x l IH]; intros n i H; [now rewrite firstn_nil|].
  destruct n as [|n]; [lia|]. destruct i as [|i]; [reflexivity|]. cbn. apply IH. lia.
Qed.
Lemma nth_error_skipn' : forall (B : Type) (l : list B) n i, nth_error (skipn n l) i = nth_error l (n + i).
Proof.
  intros B l. induction l as [|x l IH]; intros n i.
  - rewrite skipn_nil. now destruct i, n.
  - destruct n as [|n]; [reflexivity|]. cbn. apply IH.
Qed.

(** the cell-wise meaning of the two memory operations *)
Lemma memmove_ok : forall d dst src n, dst + n <= N.of_nat (length d) -> src + n <= N.of_nat (length d) ->
  exists d', memmove d dst src n = Ok d' /\ length d' = length d /\
  forall i, nth_error d' i =
    if (N.to_nat dst <=? i)%nat && (i <? N.to_nat (dst + n))%nat then nth_error d (N.to_nat src + (i - N.to_nat dst)) else nth_error d i.
Proof.
  intros d dst src n H1 H2. unfold memmove.
  replace (dst + n <=? N.of_nat (length d)) with true by lia.
  replace (src + n <=? N.of_nat (length d)) with true by lia. cbn [andb].
  eexists. split; [reflexivity|].
  assert (L1 : length (firstn (N.to_nat dst) d) = N.to_nat dst) by (rewrite firstn_length; lia).
  assert (L2 : length (firstn (N.to_nat n) (skipn (N.to_nat src) d)) = N.to_nat n) by (rewrite firstn_length, skipn_length; lia).
  split; [rewrite !app_length, L1, L2, skipn_length; lia|].
  intros i. destruct (N.to_nat dst <=? i)%nat eqn:E1; cbn [andb].
  - apply Nat.leb_le in E1. rewrite nth_error_app2 by lia. rewrite L1.
    destruct (i <? N.to_nat (dst + n))%nat eqn:E2.
    + apply Nat.ltb_lt in E2. rewrite nth_error_app1 by lia. rewrite nth_error_firstn_lt by lia. apply nth_error_skipn'.
    + apply Nat.ltb_ge in E2. rewrite nth_error_app2 by lia. rewrite L2, nth_error_skipn'. f_equal. lia.
  - apply Nat.leb_gt in E1. rewrite nth_error_app1 by lia. apply nth_error_firstn_lt. lia.
Qed.

Lemma store_ok : forall d p x, p < N.of_nat (length d) ->
  exists d', store d p x = Ok d' /\ length d' = length d /\
  forall i, nth_error d' i = if (i =? N.to_nat p)%nat then Some (Some x) else nth_error d i.
Proof.
  intros d p x H. unfold store. replace (p <? N.of_nat (length d)) with true by lia.
  eexists. split; [reflexivity|].
  assert (L1 : length (firstn (N.to_nat p) d) = N.to_nat p) by (rewrite firstn_length; lia).
  split.
  - rewrite app_length. cbn [length]. rewrite L1, skipn_length. lia.
  - intros i. destruct (i =? N.to_nat p)%nat eqn:E.
    + apply Nat.eqb_eq in E. rewrite nth_error_app2 by lia. rewrite L1, E, Nat.sub_diag. reflexivity.
    + apply Nat.eqb_neq in E. destruct (Nat.lt_ge_cases i (N.to_nat p)) as [Hi|Hi].
      * rewrite nth_error_app1 by lia. apply nth_error_firstn_lt. lia.
      * rewrite nth_error_app2 by lia. rewrite L1. destruct (i - N.to_nat p)%nat as [|q] eqn:Eq; [lia|].
        cbn [nth_error]. rewrite nth_error_skipn'. f_equal. lia.
Qed.

Lemma sub_small : forall a b, b <= a -> a < W -> sub a b = a - b.
Proof.
  intros a b H1 H2. unfold sub. replace (a + W - b) with ((a - b) + 1 * W) by lia.
  rewrite N.mod_add by discriminate. apply N.mod_small. lia.
Qed.

Lemma nth_error_repeat_none : forall n i (x : A), nth_error (repeat (@None A) n) i <> Some (Some x).
Proof.
  induction n as [|n IH]; intros i x H; destruct i; cbn in H; try discriminate. exact (IH _ _ H).
Qed.

(** list surgery cell by cell *)
Lemma nth_error_insert : forall l p (x : option A) i, (p <= length l)%nat ->
  nth_error (firstn p l ++ x :: skipn p l) i =
  if (i <? p)%nat then nth_error l i else if (i =? p)%nat then Some x else nth_error l (i - 1).
Proof.
  intros l p x i H. assert (L : length (firstn p l) = p) by (rewrite firstn_length; lia).
  destruct (i <? p)%nat eqn:E1.
  - apply Nat.ltb_lt in E1. rewrite nth_error_app1 by lia. apply nth_error_firstn_lt. lia.
  - apply Nat.ltb_ge in E1. rewrite nth_error_app2 by lia. rewrite L.
    destruct (i =? p)%nat eqn:E2.
    + apply Nat.eqb_eq in E2. now rewrite E2, Nat.sub_diag.
    + apply Nat.eqb_neq in E2. destruct (i - p)%nat as [|q] eqn:Eq; [lia|]. cbn [nth_error].
      rewrite nth_error_skipn'. f_equal. lia.
Qed.
Lemma nth_error_delete : forall l p i, (p < length l)%nat ->
  nth_error (firstn p l ++ skipn (S p) l) i = if (i <? p)%nat then nth_error l i else nth_error l (S i).
Proof.
  intros l p i H. assert (L : length (firstn p l) = p) by (rewrite firstn_length; lia).
  destruct (i <? p)%nat eqn:E1.
  - apply Nat.ltb_lt in E1. rewrite nth_error_app1 by lia. apply nth_error_firstn_lt. lia.
  - apply Nat.ltb_ge in E1. rewrite nth_error_app2 by lia. rewrite L, nth_error_skipn'. f_equal. lia.
Qed.
Lemma nth_error_assign : forall l p (x : option A) i, (p < length l)%nat ->
  nth_error (firstn p l ++ x :: skipn (S p) l) i = if (i =? p)%nat then Some x else nth_error l i.
Proof.
  intros l p x i H. assert (L : length (firstn p l) = p) by (rewrite firstn_length; lia).
  destruct (i =? p)%nat eqn:E.
  - apply Nat.eqb_eq in E. rewrite nth_error_app2 by lia. now rewrite L, E, Nat.sub_diag.
  - apply Nat.eqb_neq in E. destruct (Nat.lt_ge_cases i p) as [Hi|Hi].
    + rewrite nth_error_app1 by lia. apply nth_error_firstn_lt. lia.
    + rewrite nth_error_app2 by lia. rewrite L. destruct (i - p)%nat as [|q] eqn:Eq; [lia|].
      cbn [nth_error]. rewrite nth_error_skipn'. f_equal. lia.
Qed.

Definition fails (ok : bool) (es : N) (l' : list (option A)) : Prop :=
  2 ^ 32 <= 3 * N.of_nat (length l') \/ 2 ^ 32 <= es \/ ok = false.

Lemma inv_small : forall v, inv v -> v_len v + 1 < 2 ^ 33.
Proof. intros v (I1 & I2 & I3 & _). change (2 ^ 33) with (2 * 2 ^ 32). lia. Qed.

Lemma insert_ok : forall ok es v l x pos, inv v -> holds v l -> (N.to_nat pos <= length l)%nat ->
  let l' := firstn (N.to_nat pos) l ++ Some x :: skipn (N.to_nat pos) l in
  match insert ok es v x pos with
  | Ok v' => inv v' /\ holds v' l' /\ v_alloc v <= v_alloc v' /\
             v_alloc v' <= N.max (N.max 4 (v_alloc v)) (3 * N.of_nat (length l'))
  | Fatal => fails ok es l'
  | _ => False
  end.
Proof.
  intros ok es v l x pos Hi (H1 & H2) Hp l'. unfold insert.
  pose proof (inv_small v Hi) as Hs. change (2 ^ 33) with 8589934592 in Hs.
  assert (HW : W = 18446744073709551616) by reflexivity.
  assert (Hll : length l' = S (length l)).
  { unfold l'. rewrite app_length. cbn [length]. rewrite firstn_length, skipn_length. lia. }
  rewrite (N.mod_small (v_len v + 1)) by lia.
  pose proof (resize_ok ok es v (v_len v + 1) Hi ltac:(lia)) as Hr.
  destruct (resize ok es v (v_len v + 1)) as [v1| | |]; try contradiction; cbn [bind].
  2:{ unfold fails. rewrite Hll. destruct Hr as [Hr|Hr]; [left; lia|right; exact Hr]. }
  destruct Hr as (Hi1 & R1 & R2 & R3 & R4 & R5). destruct Hi1 as (J1 & J2 & J3 & J4).
  rewrite (sub_small (v_len v1) pos), (sub_small (v_len v1 - pos) 1) by lia.
  destruct (memmove_ok (v_data v1) (pos + 1) pos (v_len v1 - pos - 1)) as (d1 & -> & L1 & M1); [lia|lia|]. cbn [bind].
  destruct (store_ok d1 pos x) as (d2 & -> & L2 & M2); [lia|]. cbn [bind v_len v_alloc v_data].
  split; [|split; [|split]]; try lia.
  - repeat split; cbn [v_len v_alloc v_data]; try lia. exact J4.
  - split; cbn [v_len v_alloc v_data]; [lia|]. intros i y Hy.
    unfold l' in Hy. rewrite nth_error_insert in Hy by lia. rewrite M2, M1.
    assert (Hold : forall j, nth_error l j = Some (Some y) -> nth_error (v_data v1) j = Some (Some y)).
    { intros j Hj. pose proof (H2 j y Hj) as Hv. rewrite R4, nth_error_app1; [exact Hv|].
      apply nth_error_Some. rewrite Hv. discriminate. }
    destruct (i =? N.to_nat pos)%nat eqn:E.
    + apply Nat.eqb_eq in E. rewrite E in Hy. replace (N.to_nat pos <? N.to_nat pos)%nat with false in Hy by lia. exact Hy.
    + apply Nat.eqb_neq in E. destruct (i <? N.to_nat pos)%nat eqn:E2.
      * apply Nat.ltb_lt in E2. replace (N.to_nat (pos + 1) <=? i)%nat with false by lia. cbn [andb]. exact (Hold _ Hy).
      * apply Nat.ltb_ge in E2. pose proof (Hold _ Hy) as Hv.
        assert (Hlt : (i - 1 < length l)%nat) by (apply nth_error_Some; rewrite Hy; discriminate).
        replace (N.to_nat (pos + 1) <=? i)%nat with true by lia.
        replace (i <? N.to_nat (pos + 1 + (v_len v1 - pos - 1)))%nat with true by lia. cbn [andb].
        rewrite <- Hv. f_equal. lia.
Qed.

Lemma delete_ok : forall ok es v l pos, inv v -> holds v l -> (N.to_nat pos < length l)%nat ->
  let l' := firstn (N.to_nat pos) l ++ skipn (S (N.to_nat pos)) l in
  match delete ok es v pos with
  | Ok v' => inv v' /\ holds v' l' /\ v_alloc v' = v_alloc v
  | _ => False
  end.
Proof.
  intros ok es v l pos Hi (H1 & H2) Hp l'. unfold delete.
  pose proof (inv_small v Hi) as Hs. change (2 ^ 33) with 8589934592 in Hs.
  assert (HW : W = 18446744073709551616) by reflexivity.
  assert (Hll : S (length l') = length l).
  { unfold l'. rewrite app_length, firstn_length, skipn_length. lia. }
  destruct Hi as (I1 & I2 & I3 & I4).
  rewrite (sub_small (v_len v) pos), (sub_small (v_len v - pos) 1), (sub_small (v_len v) 1) by lia.
  destruct (memmove_ok (v_data v) pos (pos + 1) (v_len v - pos - 1)) as (d1 & -> & L1 & M1); [lia|lia|]. cbn [bind].
  unfold resize. cbn [v_alloc v_len v_data].
  destruct I4 as [E|(k & K1 & K2)]; [lia|].
  replace (v_alloc v =? 0) with false by lia. cbn [grow].
  replace (v_len v - 1 <=? v_alloc v) with true by lia. rewrite N.eqb_refl. cbn [v_alloc v_len v_data].
  split; [|split]; [| |reflexivity].
  - repeat split; cbn [v_len v_alloc v_data]; try lia. right. now exists k.
  - split; cbn [v_len v_alloc v_data]; [lia|]. intros i y Hy.
    unfold l' in Hy. rewrite nth_error_delete in Hy by lia. rewrite M1.
    destruct (i <? N.to_nat pos)%nat eqn:E2.
    + apply Nat.ltb_lt in E2. replace (N.to_nat pos <=? i)%nat with false by lia. cbn [andb]. exact (H2 _ _ Hy).
    + apply Nat.ltb_ge in E2. assert (Hlt : (S i < length l)%nat) by (apply nth_error_Some; rewrite Hy; discriminate).
      replace (N.to_nat pos <=? i)%nat with true by lia.
      replace (i <? N.to_nat (pos + (v_len v - pos - 1)))%nat with true by lia. cbn [andb].
      rewrite <- (H2 _ _ Hy). f_equal. lia.
Qed.

Lemma resize_list_ok : forall ok es v l n, inv v -> holds v l -> n * 3 < W ->
  let l' := firstn (N.to_nat n) l ++ repeat None (N.to_nat n - length l) in
  match resize ok es v n with
  | Ok v' => inv v' /\ holds v' l' /\ v_alloc v <= v_alloc v' /\
             v_alloc v' <= N.max (N.max 4 (v_alloc v)) (3 * N.of_nat (length l'))
  | Fatal => fails ok es l'
  | _ => False
  end.
Proof.
  intros ok es v l n Hi (H1 & H2) Hn l'.
  assert (Hll : length l' = N.to_nat n).
  { unfold l'. rewrite app_length, firstn_length, repeat_length. lia. }
  pose proof (resize_ok ok es v n Hi Hn) as Hr.
  destruct (resize ok es v n) as [v1| | |]; try contradiction.
  2:{ unfold fails. rewrite Hll. destruct Hr as [Hr|Hr]; [left; lia|right; exact Hr]. }
  destruct Hr as (Hi1 & R1 & R2 & R3 & R4 & R5).
  split; [exact Hi1|]. split; [|lia].
  split; [lia|]. intros i y Hy. unfold l' in Hy.
  destruct (Nat.lt_ge_cases i (length (firstn (N.to_nat n) l))) as [Hlt|Hge].
  - rewrite nth_error_app1 in Hy by exact Hlt. rewrite firstn_length in Hlt.
    rewrite nth_error_firstn_lt in Hy by lia. pose proof (H2 _ _ Hy) as Hv.
    rewrite R4, nth_error_app1; [exact Hv|]. apply nth_error_Some. rewrite Hv. discriminate.
  - rewrite nth_error_app2 in Hy by exact Hge. exfalso. exact (nth_error_repeat_none _ _ _ Hy).
Qed.

Lemma assign_ok : forall v l i x, inv v -> holds v l -> (N.to_nat i < length l)%nat ->
  exists v', assign v i x = Ok v' /\ inv v' /\ holds v' (firstn (N.to_nat i) l ++ Some x :: skipn (S (N.to_nat i)) l) /\
  v_alloc v' = v_alloc v.
Proof.
  intros v l i x (I1 & I2 & I3 & I4) (H1 & H2) Hi. unfold assign.
  destruct (store_ok (v_data v) i x) as (d & -> & L & M); [lia|]. cbn [bind].
  eexists. split; [reflexivity|]. split; [|split; [|reflexivity]].
  - repeat split; cbn [v_len v_alloc v_data]; try lia. exact I4.
  - split; cbn [v_len v_alloc v_data].
    + rewrite app_length. cbn [length]. rewrite firstn_length, skipn_length. lia.
    + intros j y Hy. rewrite nth_error_assign in Hy by lia. rewrite M.
      destruct (j =? N.to_nat i)%nat; [exact Hy|exact (H2 _ _ Hy)].
Qed.

Lemma step_ok : forall es v l e l', inv v -> holds v l -> op_small (snd e) -> l_step l (snd e) = Some l' ->
  match step es v e with
  | Ok v' => inv v' /\ holds v' l' /\ v_alloc v <= v_alloc v' /\
             v_alloc v' <= N.max (N.max 4 (v_alloc v)) (3 * N.of_nat (length l'))
  | Fatal => fails (fst e) es l'
  | _ => False
  end.
Proof.
  intros es v l (ok, o) l' Hi Hh Hs Hl. cbn [snd fst] in *. unfold step.
  destruct o as [x pos|x|pos|n|i x]; cbn [l_step] in Hl.
  - destruct (N.to_nat pos <=? length l)%nat eqn:E; [|discriminate]. injection Hl as <-.
    apply insert_ok; [exact Hi|exact Hh|lia].
  - injection Hl as <-. unfold add.
    pose proof (insert_ok ok es v l x (v_len v) Hi Hh) as H. destruct Hh as (H1 & H2). rewrite H1 in H.
    rewrite firstn_all, skipn_all in H. apply H. lia.
  - destruct (N.to_nat pos <? length l)%nat eqn:E; [|discriminate]. injection Hl as <-.
    pose proof (delete_ok ok es v l pos Hi Hh ltac:(lia)) as H. cbv zeta in H.
    destruct (delete ok es v pos) as [v'| | |]; try contradiction. destruct H as (K1 & K2 & K3).
    split; [exact K1|]. split; [exact K2|]. lia.
  - injection Hl as <-. apply resize_list_ok; [exact Hi|exact Hh|exact Hs].
  - destruct (N.to_nat i <? length l)%nat eqn:E; [|discriminate]. injection Hl as <-.
    destruct (assign_ok v l i x Hi Hh ltac:(lia)) as (v' & -> & K1 & K2 & K3).
    split; [exact K1|]. split; [exact K2|]. lia.
Qed.

Lemma steps_ok : forall es ops v l l', inv v -> holds v l -> Forall op_small (map snd ops) -> l_steps l (map snd ops) = Some l' ->
  match steps es v ops with
  | Ok v' => inv v' /\ holds v' l' /\ v_alloc v <= v_alloc v' /\
             v_alloc v' <= N.max (N.max 4 (v_alloc v)) (3 * N.of_nat (list_max (lengths l (map snd ops))))
  | Fatal => 2 ^ 32 <= 3 * N.of_nat (list_max (lengths l (map snd ops))) \/ 2 ^ 32 <= es \/ In false (map fst ops)
  | _ => False
  end.
Proof.
  intros es ops. induction ops as [|e ops IH]; intros v l l' Hi Hh Hs Hl.
  - cbn in Hl. injection Hl as <-. cbn [steps]. split; [exact Hi|]. split; [exact Hh|]. lia.
  - cbn [map steps l_steps lengths] in *. inversion Hs as [|? ? Hs1 Hs2]; subst.
    destruct (l_step l (snd e)) as [l1|] eqn:E1; [|discriminate].
    pose proof (step_ok es v l e l1 Hi Hh Hs1 E1) as H1.
    change (list_max (length l1 :: lengths l1 (map snd ops))) with (Nat.max (length l1) (list_max (lengths l1 (map snd ops)))).
    destruct (step es v e) as [v1| | |]; try contradiction; cbn [bind].
    + destruct H1 as (K1 & K2 & K3 & K4). specialize (IH v1 l1 l' K1 K2 Hs2 Hl).
      destruct (steps es v1 ops) as [v2| | |]; try contradiction.
      * destruct IH as (M1 & M2 & M3 & M4). split; [exact M1|]. split; [exact M2|]. lia.
      * destruct IH as [M|[M|M]]; [left; lia|right; left; exact M|right; right; right; exact M].
    + destruct H1 as [M|[M|M]]; [left; lia|right; left; exact M|right; right; left; exact M].
Qed.

Lemma holds_empty : holds (@empty A) [].
Proof. split; [reflexivity|]. intros i x H. destruct i; discriminate. Qed.

Lemma index_ok : forall v l i x, holds v l -> nth_error l (N.to_nat i) = Some (Some x) -> index v i = Ok x.
Proof.
  intros v l i x (H1 & H2) H. pose proof (H2 _ _ H) as Hv. unfold index.
  assert (Hlt : (N.to_nat i < length (v_data v))%nat) by (apply nth_error_Some; rewrite Hv; discriminate).
  replace (i <? N.of_nat (length (v_data v))) with true by lia.
  now rewrite (nth_error_nth _ _ _ Hv).
Qed.

Lemma vector_list : forall es (ops : list (bool * op A)) l, Forall op_small (map snd ops) -> l_steps [] (map snd ops) = Some l ->
  match steps es empty ops with
  | Ok v => v_len v = N.of_nat (length l) /\ (forall i x, nth_error l (N.to_nat i) = Some (Some x) -> index v i = Ok x)
  | Fatal => In false (map fst ops) \/ 2 ^ 32 <= es \/ 2 ^ 32 <= 3 * N.of_nat (list_max (lengths [] (map snd ops)))
  | _ => False
  end.
Proof.
  intros es ops l Hs Hl. pose proof (steps_ok es ops empty [] l inv_empty holds_empty Hs Hl) as H.
  destruct (steps es empty ops) as [v| | |]; try contradiction.
  - destruct H as (_ & H & _). split; [destruct H; lia|]. intros i x. now apply index_ok.
  - destruct H as [H|[H|H]]; [right; right; exact H|right; left; exact H|left; exact H].
Qed.

Lemma vector_alloc : forall es (ops : list (bool * op A)) l v, Forall op_small (map snd ops) -> l_steps [] (map snd ops) = Some l ->
  steps es empty ops = Ok v ->
  length (v_data v) = N.to_nat (v_alloc v) /\ v_len v <= v_alloc v /\ alloc_ok (v_alloc v) /\
  v_alloc v <= N.max 4 (3 * N.of_nat (list_max (lengths [] (map snd ops)))).
Proof.
  intros es ops l v Hs Hl Hv. pose proof (steps_ok es ops empty [] l inv_empty holds_empty Hs Hl) as H.
  rewrite Hv in H. destruct H as ((I1 & I2 & I3 & I4) & _ & _ & H). cbn [v_alloc empty] in H.
  repeat split; try lia. exact I4.
Qed.
End V.

Lemma vector_overflow : exists n v, n < 2 ^ 64 /\ resize true 1 (@empty N) n = Ok v /\ v_len v = n /\ length (v_data v) = 4%nat /\
  assign v 4 0 = UB.
Proof.
  exists 6148914691236517206. eexists. split; [reflexivity|]. split; [vm_compute; reflexivity|].
  split; [reflexivity|]. split; [reflexivity|]. vm_compute. reflexivity.
Qed.
