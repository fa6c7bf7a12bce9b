(** Facts about buffer memory. *)
From Verif Require Import Base BufferModel.

Lemma length_slice l off n : off + n <= length l -> length (slice l off n) = n.
Proof. intro H. unfold slice. rewrite firstn_length, skipn_length. lia. Qed.

Lemma length_overwrite m off d :
  off + length d <= length m -> length (overwrite m off d) = length m.
Proof.
  intro H. unfold overwrite. rewrite !app_length, firstn_length, skipn_length. lia.
Qed.

Lemma slice_0 l off : slice l off 0 = [].
Proof. reflexivity. Qed.

Lemma slice_all l : slice l 0 (length l) = l.
Proof. unfold slice. cbn [skipn]. apply firstn_all. Qed.

Lemma firstn_add {A} (l : list A) a b : firstn (a + b) l = firstn a l ++ firstn b (skipn a l).
Proof.
  revert l; induction a as [|a IH]; intro l; [reflexivity|].
  destruct l as [|x l]; cbn [Nat.add firstn skipn app].
  - now rewrite firstn_nil.
  - now rewrite IH.
Qed.

Lemma skipn_add {A} (l : list A) a b : skipn (a + b) l = skipn b (skipn a l).
Proof.
  revert l; induction a as [|a IH]; intro l; [reflexivity|].
  destruct l as [|x l]; cbn [Nat.add skipn].
  - now rewrite skipn_nil.
  - now rewrite IH.
Qed.

Lemma slice_add l off a b : slice l off (a + b) = slice l off a ++ slice l (off + a) b.
Proof. unfold slice. rewrite firstn_add. now rewrite skipn_add. Qed.

Lemma slice_app_l a b off n : off + n <= length a -> slice (a ++ b) off n = slice a off n.
Proof.
  intro H. unfold slice. rewrite skipn_app, firstn_app.
  rewrite skipn_length. replace (n - (length a - off)) with 0 by lia.
  cbn [firstn]. now rewrite app_nil_r.
Qed.

Lemma slice_app_r a b off n : length a <= off -> slice (a ++ b) off n = slice b (off - length a) n.
Proof.
  intro H. unfold slice. rewrite skipn_app.
  rewrite (skipn_all2 a) by lia. reflexivity.
Qed.

Lemma slice_overwrite_in m off d k n :
  off <= length m -> k + n <= length d ->
  slice (overwrite m off d) (off + k) n = slice d k n.
Proof.
  intros H1 H2. unfold overwrite.
  rewrite slice_app_r by (rewrite firstn_length; lia).
  rewrite firstn_length. replace (off + k - Nat.min off (length m)) with k by lia.
  apply slice_app_l. lia.
Qed.

Lemma slice_overwrite_in0 m off d n :
  off <= length m -> n <= length d -> slice (overwrite m off d) off n = slice d 0 n.
Proof.
  intros H1 H2. rewrite <- (slice_overwrite_in m off d 0 n) by lia. f_equal. lia.
Qed.

Lemma slice_overwrite_same m off d :
  off <= length m -> slice (overwrite m off d) off (length d) = d.
Proof.
  intro H. replace off with (off + 0) at 2 by lia.
  rewrite slice_overwrite_in by lia. apply slice_all.
Qed.

Lemma slice_overwrite_eq m off d n :
  n = length d -> off <= length m -> slice (overwrite m off d) off n = d.
Proof. intros -> H. now apply slice_overwrite_same. Qed.

Lemma slice_overwrite_before m off d o n :
  off <= length m -> o + n <= off -> slice (overwrite m off d) o n = slice m o n.
Proof.
  intros H1 H2. unfold overwrite.
  rewrite slice_app_l by (rewrite firstn_length; lia).
  rewrite <- (firstn_skipn off m) at 2.
  rewrite slice_app_l by (rewrite firstn_length; lia). reflexivity.
Qed.

Lemma skipn_slice l a b n : slice (skipn a l) b n = slice l (a + b) n.
Proof. unfold slice. now rewrite skipn_add. Qed.

Lemma slice_overwrite_after m off d o n :
  off <= length m -> off + length d <= o -> slice (overwrite m off d) o n = slice m o n.
Proof.
  intros H1 H2. unfold overwrite.
  rewrite slice_app_r by (rewrite firstn_length; lia).
  rewrite firstn_length.
  rewrite slice_app_r by lia.
  rewrite skipn_slice. f_equal. lia.
Qed.

Lemma slice_slice l o n k j : k + j <= n -> slice (slice l o n) k j = slice l (o + k) j.
Proof.
  intro H. unfold slice. rewrite skipn_firstn_comm, firstn_firstn, skipn_add.
  f_equal. lia.
Qed.

Lemma alignto_16_bounds n : n <= alignto n 16 /\ alignto n 16 < n + 16 /\ alignto n 16 mod 16 = 0.
Proof.
  unfold alignto, block_count. split; [|split]; lia.
Qed.

Lemma alignto_fits n mb : mb mod 16 = 0 -> n <= mb -> alignto n 16 <= mb.
Proof. unfold alignto, block_count. lia. Qed.

Lemma write_ok mem off d : off + length d <= length mem -> write mem off d = Ok (overwrite mem off d).
Proof. intro H. unfold write. destruct (Nat.leb_spec (off + length d) (length mem)); [reflexivity|lia]. Qed.

Lemma read_ok mem off n : off + n <= length mem -> read mem off n = Ok (slice mem off n).
Proof. intro H. unfold read. destruct (Nat.leb_spec (off + n) (length mem)); [reflexivity|lia]. Qed.

Lemma read_blocks_ok mem off n :
  off mod 16 = 0 -> off + 16 * n <= length mem -> read_blocks mem off n = Ok (slice mem off (16 * n)).
Proof. intros H1 H2. unfold read_blocks, aligned16. rewrite H1. cbn [Nat.eqb]. now apply read_ok. Qed.

Lemma write_blocks_ok mem off d :
  off mod 16 = 0 -> off + length d <= length mem -> write_blocks mem off d = Ok (overwrite mem off d).
Proof. intros H1 H2. unfold write_blocks, aligned16. rewrite H1. cbn [Nat.eqb]. now apply write_ok. Qed.

Lemma b_push_from_ok b d :
  length d <= b_off b -> b_off b <= length (b_mem b) ->
  b_push_from b d = Ok {| b_mem := overwrite (b_mem b) (b_off b - length d) d;
                          b_off := b_off b - length d; b_len := b_len b + length d |}.
Proof.
  intros H1 H2. unfold b_push_from, b_push.
  destruct (Nat.ltb_spec (b_off b) (length d)); [lia|].
  cbn [bind b_mem b_off b_len]. rewrite write_ok by lia. reflexivity.
Qed.

Lemma b_pull_ok b n :
  n <= b_len b -> b_pull b n = Ok {| b_mem := b_mem b; b_off := b_off b + n; b_len := b_len b - n |}.
Proof. intro H. unfold b_pull. destruct (Nat.ltb_spec (b_len b) n); [lia|reflexivity]. Qed.

Lemma b_alloc_ok mb g len hr :
  mb mod 16 = 0 -> hr + len <= mb ->
  b_alloc mb g len hr = Ok {| b_mem := g; b_off := hr; b_len := len |}.
Proof.
  intros H1 H2. unfold b_alloc. pose proof (alignto_fits (hr + len) mb H1 H2).
  destruct (Nat.ltb_spec mb (alignto (hr + len) 16)); [lia|reflexivity].
Qed.

Lemma b_zero_pad_ok b :
  length (b_mem b) mod 16 = 0 -> b_off b + b_len b <= length (b_mem b) ->
  b_zero_pad b =
    Ok {| b_mem := overwrite (b_mem b) (b_off b + b_len b)
                     (repeat 0%N (alignto (b_off b + b_len b) 16 - (b_off b + b_len b)));
          b_off := b_off b; b_len := b_len b |}.
Proof.
  intros H1 H2. unfold b_zero_pad.
  pose proof (alignto_fits _ _ H1 H2). pose proof (alignto_16_bounds (b_off b + b_len b)).
  rewrite write_ok by (rewrite repeat_length; lia). reflexivity.
Qed.
