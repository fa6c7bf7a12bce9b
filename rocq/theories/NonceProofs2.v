(** What the receive window guarantees when the network also returns a node's own packets *)
From Coq Require Import ZArith Lia Bool ZifyBool ZifyNat ZifyN.
From Verif Require Import Base BaseLemmas NonceModel NonceSpec NonceProofs.
Local Open Scope Z_scope.

Definition unseen (s : session) (k : N) : Z := if N.testbit (s_seen s) k then 0 else 1.

Lemma accept_cases now s n : nonce_wf (s_recv s) -> nonce_wf n ->
  let '(s', v) := accept_nonce now s n in
  (v = VRejected /\ s' = s) \/
  (v = VNew /\ nval (s_recv s) < nval n /\ s_recv s' = n) \/
  (v = VReordered /\ s_recv s' = s_recv s /\
   exists k, (k < 64)%N /\ Z.of_N k + 1 = (nval (s_recv s) - nval n) / 2 /\
             N.testbit (s_seen s) k = false /\ s_seen s' = N.lor (s_seen s) (2 ^ k)).
Proof.
  intros Hr Hn. unfold accept_nonce, is_nonce_valid. destruct (negb _); [left; auto|].
  rewrite age_val by auto. set (a := (nval (s_recv s) - nval n) / 2).
  assert (Ha : a <= 64 -> let '(s', v) := match reorder_check now s n a with
      | RUB => (s, VUB) | RDuplicate => (s, VRejected) | RNew s' => (s', VNew) | RReordered s' => (s', VReordered) end in
    (v = VRejected /\ s' = s) \/ (v = VNew /\ nval (s_recv s) < nval n /\ s_recv s' = n) \/
    (v = VReordered /\ s_recv s' = s_recv s /\
     exists k, (k < 64)%N /\ Z.of_N k + 1 = a /\ N.testbit (s_seen s) k = false /\ s_seen s' = N.lor (s_seen s) (2 ^ k))).
  { intros Ha. unfold reorder_check. destruct (Z.ltb_spec a 0) as [Hneg | Hpos].
    - assert (Hlt : nval (s_recv s) < nval n) by (subst a; lia).
      destruct (if (64 <=? _)%N then _ else _) as [seen1|] eqn:E1.
      + destruct (if (_ <=? 64)%N then _ else _) as [seen2|] eqn:E2.
        * right. left. auto.
        * exfalso. destruct (N.leb_spec (Z.to_N (- a)) 64) as [H1 | H1]; [|discriminate].
          rewrite shl64_one in E2 by lia. discriminate.
      + exfalso. destruct (N.leb_spec 64 (Z.to_N (- a))) as [H1 | H1]; [discriminate|].
        unfold shl64 in E1. destruct (N.ltb_spec (Z.to_N (- a)) 64); [discriminate | lia].
    - destruct (Z.eqb_spec a 0) as [H0 | H0]; [left; auto|].
      rewrite shl64_one by lia. rewrite land_pow2, negb_involutive.
      destruct (N.testbit (s_seen s) (Z.to_N (a - 1))) eqn:Eb; [left; auto|].
      right. right. split; [reflexivity|]. split; [reflexivity|]. exists (Z.to_N (a - 1)).
      split; [lia|]. split; [lia|]. split; [exact Eb | reflexivity]. }
  destruct (Z.leb_spec 0 a).
  - destruct (timed_out _ _); [left; auto|]. destruct (Z.ltb_spec 64 a); [left; auto|]. apply Ha. lia.
  - apply Ha. lia.
Qed.

Lemma accept_wf now s n : nonce_wf (s_recv s) -> nonce_wf n -> nonce_wf (s_recv (fst (accept_nonce now s n))).
Proof.
  intros Hr Hn. pose proof (accept_cases now s n Hr Hn) as C. destruct (accept_nonce now s n) as (s', v). cbn [fst].
  destruct C as [(_ & ->) | [(_ & _ & ->) | (_ & -> & _)]]; auto.
Qed.

(** How often the packet [x] may still be accepted *)
Definition left_over (x : Z) (s : session) : Z :=
  let r := nval (s_recv s) in
  if r <? x then 129
  else if r <? x + 2 then 128
  else if r <=? x + 129 then x + 129 - r + unseen s (Z.to_N ((r - x) / 2 - 1))
  else 0.

Lemma unseen_range s k : 0 <= unseen s k <= 1.
Proof. unfold unseen. destruct (N.testbit _ _); lia. Qed.

Lemma left_over_range x s : 0 <= left_over x s <= 129.
Proof.
  unfold left_over. pose proof (unseen_range s (Z.to_N ((nval (s_recv s) - x) / 2 - 1))).
  repeat match goal with |- context [if ?b then _ else _] => destruct b eqn:? end; lia.
Qed.

Lemma left_over_step now s n x : nonce_wf (s_recv s) -> nonce_wf n ->
  let '(s', v) := accept_nonce now s n in
  left_over x s' + (if is_accepted v && (nval n =? x) then 1 else 0) <= left_over x s.
Proof.
  intros Hr Hn. pose proof (accept_cases now s n Hr Hn) as C. destruct (accept_nonce now s n) as (s', v).
  destruct C as [(-> & ->) | [(-> & Hlt & E) | (-> & E & k & Hk & Ek & Eb & Es)]]; cbn [is_accepted andb].
  - lia.
  - unfold left_over. rewrite E.
    pose proof (unseen_range s (Z.to_N ((nval (s_recv s) - x) / 2 - 1))).
    pose proof (unseen_range s' (Z.to_N ((nval n - x) / 2 - 1))).
    destruct (Z.eqb_spec (nval n) x) as [Hx | Hne];
    repeat match goal with |- context [if ?b then _ else _] => destruct b eqn:? end; lia.
  - unfold left_over. rewrite E. set (r := nval (s_recv s)) in *.
    assert (M : forall j, unseen s' j <= unseen s j).
    { intros j. unfold unseen. rewrite Es, N.lor_spec. destruct (N.testbit (s_seen s) j); cbn [orb]; [lia|].
      destruct (N.testbit (2 ^ k) j); lia. }
    specialize (M (Z.to_N ((r - x) / 2 - 1))).
    destruct (Z.eqb_spec (nval n) x) as [Hx | Hne].
    + assert (D : Z.to_N ((r - x) / 2 - 1) = k) by lia.
      replace (r <? x) with false by lia. replace (r <? x + 2) with false by lia.
      replace (r <=? x + 129) with true by lia. rewrite D.
      unfold unseen. rewrite Es, N.lor_spec, Eb, N.pow2_bits_true. cbn [orb]. lia.
    + destruct (r <? x) eqn:?; [lia|]. destruct (r <? x + 2) eqn:?; [lia|]. destruct (r <=? x + 129) eqn:?; lia.
Qed.

Lemma accepted_count l : forall s n, nonce_wf (s_recv s) -> nonce_wf n ->
  Forall (fun '(t, m) => nonce_wf m) l ->
  Z.of_nat (count_occ (list_eq_dec N.eq_dec) (accepted_nonces l (recv_run s l)) n) <= left_over (nval n) s.
Proof.
  induction l as [|(t, m) l IH]; intros s n Hr Hn HF; cbn [recv_run accepted_nonces count_occ].
  - pose proof (left_over_range (nval n) s). cbn. lia.
  - pose proof (Forall_inv HF) as Hm. cbn beta iota in Hm. pose proof (Forall_inv_tail HF) as HF'.
    pose proof (left_over_step t s m (nval n) Hr Hm) as ST. pose proof (accept_wf t s m Hr Hm) as W.
    destruct (accept_nonce t s m) as (s', v). cbn [fst] in W. specialize (IH s' n W Hn HF').
    destruct (is_accepted v); cbn [andb] in ST.
    + cbn [count_occ]. destruct (list_eq_dec N.eq_dec m n) as [-> | Hne].
      * rewrite Z.eqb_refl in ST. lia.
      * destruct (Z.eqb_spec (nval m) (nval n)) as [E | E]; [exfalso; apply Hne, nval_inj; auto|]. lia.
    + lia.
Qed.

Lemma accepted_129 now ini compat rnd l n :
  Forall (fun '(t, m) => nonce_wf m) l ->
  (count_occ (list_eq_dec N.eq_dec) (accepted_nonces l (recv_run (common_init now ini compat rnd) l)) n <= 129)%nat.
Proof.
  intros HF. destruct (in_dec (list_eq_dec N.eq_dec) n (accepted_nonces l (recv_run (common_init now ini compat rnd) l))) as [Hin | Hout].
  - assert (Hn : nonce_wf n).
    { clear - HF Hin. revert Hin. generalize (common_init now ini compat rnd). induction l as [|(t, m) l IH]; intros s Hin; [destruct Hin|].
      cbn [recv_run accepted_nonces] in Hin. destruct (accept_nonce t s m) as (s', v).
      pose proof (Forall_inv HF) as Hm. cbn beta iota in Hm. pose proof (Forall_inv_tail HF) as HF'.
      destruct (is_accepted v); [destruct Hin as [<- | Hin]; auto|]; eapply IH; eauto. }
    assert (Hr : nonce_wf (s_recv (common_init now ini compat rnd))) by (destruct ini; split; [apply wf_bytesb_spec; reflexivity | reflexivity | apply wf_bytesb_spec; reflexivity | reflexivity]).
    pose proof (accepted_count l _ n Hr Hn HF). pose proof (left_over_range (nval n) (common_init now ini compat rnd)). lia.
  - apply (count_occ_not_In (list_eq_dec N.eq_dec)) in Hout. rewrite Hout. lia.
Qed.

Lemma accept_new_exactly now s n : nonce_wf (s_recv s) -> nonce_wf n ->
  (snd (accept_nonce now s n) = VNew <->
   N.odd (hd 0%N n) = N.odd (hd 0%N (s_recv s)) /\ nval (s_recv s) < nval n).
Proof.
  intros Hr Hn. split.
  - intros HV. pose proof (accept_cases now s n Hr Hn) as C. split.
    + unfold accept_nonce, is_nonce_valid in HV. rewrite land1_eq in HV.
      destruct (Bool.eqb _ _) eqn:E; [apply eqb_prop in E; auto|]. discriminate.
    + destruct (accept_nonce now s n) as (s', v). cbn [snd] in HV. subst v.
      destruct C as [(C & _) | [(_ & C & _) | (C & _)]]; auto; discriminate.
  - intros (Ho & Hlt). pose proof (accept_cases now s n Hr Hn) as C. revert C.
    unfold accept_nonce, is_nonce_valid. rewrite land1_eq, Ho, eqb_reflx. cbn [negb].
    rewrite age_val by auto. replace (0 <=? (nval (s_recv s) - nval n) / 2) with false by lia.
    unfold reorder_check. replace ((nval (s_recv s) - nval n) / 2 <? 0) with true by lia.
    destruct (if (64 <=? _)%N then _ else _) as [s1|]; [destruct (if (_ <=? 64)%N then _ else _) as [s2|]|]; auto;
    intros [(C & _) | [(C & _) | (C & _)]]; discriminate.
Qed.

Lemma run_recv_wf l : forall s, nonce_wf (s_recv s) ->
  (forall t n, In (SRecv t n) l -> nonce_wf n) -> nonce_wf (s_recv (fst (sess_run s l))).
Proof.
  induction l as [|o l IH]; intros s Hr Hl; [exact Hr|]. cbn [sess_run].
  destruct (sess_step s o) as (s1, out1) eqn:E. destruct (sess_run s1 l) as (s2, out2) eqn:E2. cbn [fst].
  replace s2 with (fst (sess_run s1 l)) by (rewrite E2; reflexivity). apply IH.
  - destruct o as [now | now n | now]; cbn [sess_step] in E.
    + unfold guarded_send in E. destruct (common_is_valid now s); [|injection E as <- _; exact Hr].
      cbn [put_common_header skipn] in E. injection E as <- _. exact Hr.
    + injection E as <- _. apply accept_wf; auto. apply (Hl now n). left. reflexivity.
    + injection E as <- _. unfold common_superseded. destruct (_ <? _); exact Hr.
  - intros t n Hin. apply (Hl t n). right. exact Hin.
Qed.

(** A reflected packet is new exactly if a packet of the peer with this number would be *)
Lemma reflected_exactly now ini compat rnd ops t n :
  let '(s, sent) := sess_run (common_init now ini compat rnd) ops in
  (forall t' n', In (SRecv t' n') ops -> nonce_wf n') -> In n sent ->
  (snd (accept_nonce t s n) = VNew <->
   N.odd (hd 0%N n) = N.odd (hd 0%N (s_recv s)) /\ (be_val (s_recv s) < be_val n)%N).
Proof.
  destruct (sess_run (common_init now ini compat rnd) ops) as (s, sent) eqn:E. intros Hl Hin.
  assert (Hr : nonce_wf (s_recv s)).
  { replace s with (fst (sess_run (common_init now ini compat rnd) ops)) by (rewrite E; reflexivity).
    apply run_recv_wf; auto. destruct ini; split; [apply wf_bytesb_spec; reflexivity | reflexivity | apply wf_bytesb_spec; reflexivity | reflexivity]. }
  assert (Hn : nonce_wf n).
  { apply (sent_wf ini). exists now, compat, rnd, ops. rewrite E. exact Hin. }
  rewrite (accept_new_exactly t s n Hr Hn). unfold nval. rewrite <- N2Z.inj_lt. reflexivity.
Qed.
