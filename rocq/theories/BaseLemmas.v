(** Lemmas about [Base]. *)
From Verif Require Import Base.
Local Open Scope N_scope.

Lemma is_byteb_spec b : is_byteb b = true <-> is_byte b.
Proof. unfold is_byteb, is_byte. lia. Qed.

Lemma wf_bytesb_spec l : wf_bytesb l = true <-> wf_bytes l.
Proof.
  unfold wf_bytesb, wf_bytes. rewrite forallb_forall, Forall_forall.
  split; intros H x Hx; apply is_byteb_spec; auto.
Qed.

Lemma wf_nil : wf_bytes [].
Proof. constructor. Qed.

Lemma wf_cons b l : wf_bytes (b :: l) <-> is_byte b /\ wf_bytes l.
Proof. unfold wf_bytes. split; [intros H; inversion H; auto | intros [? ?]; constructor; auto]. Qed.

Lemma wf_app l1 l2 : wf_bytes (l1 ++ l2) <-> wf_bytes l1 /\ wf_bytes l2.
Proof. unfold wf_bytes. apply Forall_app. Qed.

Lemma pow8_S n : 2 ^ (8 * N.of_nat (S n)) = 256 * 2 ^ (8 * N.of_nat n).
Proof.
  replace (8 * N.of_nat (S n)) with (8 + 8 * N.of_nat n) by lia.
  rewrite N.pow_add_r. reflexivity.
Qed.

Lemma pow8_pos n : 0 < 2 ^ (8 * N.of_nat n).
Proof. apply N.neq_0_lt_0, N.pow_nonzero. lia. Qed.

Lemma be_val_bound l : wf_bytes l -> be_val l < 2 ^ (8 * N.of_nat (length l)).
Proof.
  induction l as [|b l IH]; intros H.
  - cbn. lia.
  - apply wf_cons in H as [Hb Hl]. specialize (IH Hl). unfold is_byte in Hb.
    cbn [be_val length]. rewrite pow8_S. nia.
Qed.

Lemma be_bytes_length n v : length (be_bytes n v) = n.
Proof. induction n; cbn [be_bytes length]; auto. Qed.

Lemma be_bytes_wf n v : wf_bytes (be_bytes n v).
Proof.
  induction n; cbn [be_bytes]; [constructor|].
  apply wf_cons; split; [|auto]. unfold is_byte. apply N.mod_lt. lia.
Qed.

Lemma be_val_app l1 l2 :
  be_val (l1 ++ l2) = be_val l1 * 2 ^ (8 * N.of_nat (length l2)) + be_val l2.
Proof.
  induction l1 as [|b l1 IH]; cbn [app be_val]; [lia|].
  rewrite IH, app_length.
  replace (8 * N.of_nat (length l1 + length l2)) with (8 * N.of_nat (length l1) + 8 * N.of_nat (length l2)) by lia.
  rewrite N.pow_add_r. lia.
Qed.

Lemma be_bytes_mod n v : be_bytes n (v mod 2 ^ (8 * N.of_nat n)) = be_bytes n v.
Proof.
  assert (G : forall m k, (m <= k)%nat -> be_bytes m (v mod 2 ^ (8 * N.of_nat k)) = be_bytes m v).
  { induction m as [|m IH]; intros k Hk; cbn [be_bytes]; [reflexivity|].
    rewrite IH by lia. f_equal.
    assert (E : 2 ^ (8 * N.of_nat k) = 2 ^ (8 * N.of_nat m) * (256 * 2 ^ (8 * N.of_nat (k - S m)))).
    { change 256 with (2 ^ 8). rewrite <- !N.pow_add_r. f_equal. lia. }
    rewrite E. pose proof (pow8_pos m). pose proof (pow8_pos (k - S m)).
    rewrite N.mod_mul_r by lia.
    rewrite (N.mul_comm (2 ^ (8 * N.of_nat m)) (_ mod _)), N.div_add by lia.
    rewrite N.div_small by (apply N.mod_lt; lia). rewrite N.add_0_l.
    rewrite N.mod_mul_r by lia.
    rewrite (N.mul_comm 256 (_ mod _)), N.mod_add by lia. apply N.mod_mod. lia. }
  apply G. lia.
Qed.

Lemma be_val_be_bytes n v : be_val (be_bytes n v) = v mod 2 ^ (8 * N.of_nat n).
Proof.
  induction n as [|n IH].
  - cbn. rewrite N.mod_1_r. reflexivity.
  - cbn [be_bytes be_val]. rewrite be_bytes_length, IH, pow8_S.
    pose proof (pow8_pos n).
    rewrite (N.mul_comm 256), (N.mod_mul_r v _ 256) by lia. lia.
Qed.

Lemma be_bytes_be_val l : wf_bytes l -> be_bytes (length l) (be_val l) = l.
Proof.
  induction l as [|b l IH]; intros H; [reflexivity|].
  apply wf_cons in H as [Hb Hl]. cbn [length be_bytes be_val].
  pose proof (be_val_bound l Hl). pose proof (pow8_pos (length l)). unfold is_byte in Hb.
  f_equal.
  - rewrite N.add_comm, N.div_add by lia. rewrite N.div_small by lia. rewrite N.add_0_l, N.mod_small; lia.
  - rewrite <- be_bytes_mod. rewrite N.add_comm, N.mod_add by lia. rewrite be_bytes_mod. auto.
Qed.

Lemma be_val_inj l1 l2 :
  wf_bytes l1 -> wf_bytes l2 -> length l1 = length l2 -> be_val l1 = be_val l2 -> l1 = l2.
Proof.
  intros H1 H2 HL HV. rewrite <- (be_bytes_be_val l1 H1), <- (be_bytes_be_val l2 H2). congruence.
Qed.

Lemma le_bytes_length n v : length (le_bytes n v) = n.
Proof. revert v; induction n; intros v; cbn [le_bytes length]; auto. Qed.

Lemma le_bytes_wf n v : wf_bytes (le_bytes n v).
Proof.
  revert v; induction n; intros v; cbn [le_bytes]; [constructor|].
  apply wf_cons; split; [|auto]. unfold is_byte. apply N.mod_lt. lia.
Qed.

Lemma le_val_le_bytes n v : le_val (le_bytes n v) = v mod 2 ^ (8 * N.of_nat n).
Proof.
  revert v; induction n as [|n IH]; intros v.
  - cbn. rewrite N.mod_1_r. reflexivity.
  - cbn [le_bytes le_val]. rewrite IH, pow8_S.
    pose proof (pow8_pos n).
    rewrite (N.mod_mul_r v 256) by lia. reflexivity.
Qed.

Lemma le_bytes_le_val l : wf_bytes l -> le_bytes (length l) (le_val l) = l.
Proof.
  induction l as [|b l IH]; intros H; [reflexivity|].
  apply wf_cons in H as [Hb Hl]. cbn [length le_bytes le_val]. unfold is_byte in Hb.
  f_equal.
  - rewrite N.mul_comm, N.mod_add by lia. apply N.mod_small; auto.
  - rewrite N.mul_comm, N.div_add by lia. rewrite N.div_small by lia. auto.
Qed.

Lemma le_val_bound l : wf_bytes l -> le_val l < 2 ^ (8 * N.of_nat (length l)).
Proof.
  induction l as [|b l IH]; intros H.
  - cbn. lia.
  - apply wf_cons in H as [Hb Hl]. specialize (IH Hl). unfold is_byte in Hb.
    cbn [le_val length]. rewrite pow8_S. nia.
Qed.
