From Verif Require Import Base BaseLemmas NonceModel NonceSpec.
Local Open Scope Z_scope.

(** * Nonce values *)

Definition nonce_wf (n : bytes) : Prop := wf_bytes n /\ length n = COMMON_NONCEBYTES.
Definition nval (n : bytes) : Z := Z.of_N (be_val n).

Lemma nval_range n : nonce_wf n -> 0 <= nval n < 2 ^ 48.
Proof.
  intros [Hw Hl]. unfold nval. pose proof (be_val_bound n Hw) as H.
  rewrite Hl in H. change (2 ^ (8 * N.of_nat COMMON_NONCEBYTES))%N with (2 ^ 48)%N in H. lia.
Qed.

Lemma nval_inj a b : nonce_wf a -> nonce_wf b -> nval a = nval b -> a = b.
Proof.
  intros [Ha La] [Hb Lb] H. unfold nval in H. apply be_val_inj; auto; [congruence|lia].
Qed.

Lemma nonce_cases n : nonce_wf n -> exists a b c d e f, n = [a;b;c;d;e;f] /\
  (a < 256 /\ b < 256 /\ c < 256 /\ d < 256 /\ e < 256 /\ f < 256)%N.
Proof.
  intros [Hw Hl]. unfold COMMON_NONCEBYTES in Hl.
  do 6 (destruct n as [|? n]; [discriminate|]). destruct n; [|discriminate].
  repeat (apply wf_cons in Hw as [? Hw]). unfold is_byte in *.
  repeat eexists; eauto.
Qed.

Lemma nval_eq a b c d e f :
  nval [a;b;c;d;e;f] = Z.of_N a * 2^40 + Z.of_N b * 2^32 + Z.of_N c * 2^24
                       + Z.of_N d * 2^16 + Z.of_N e * 2^8 + Z.of_N f.
Proof.
  unfold nval. cbn [be_val length].
  change (2 ^ (8 * N.of_nat 5))%N with 1099511627776%N.
  change (2 ^ (8 * N.of_nat 4))%N with 4294967296%N.
  change (2 ^ (8 * N.of_nat 3))%N with 16777216%N.
  change (2 ^ (8 * N.of_nat 2))%N with 65536%N.
  change (2 ^ (8 * N.of_nat 1))%N with 256%N.
  change (2 ^ (8 * N.of_nat 0))%N with 1%N. lia.
Qed.

Lemma ldiff_1_small x : (x < 256 -> (N.eqb (N.ldiff x 1) 0 = true <-> x = 0 \/ x = 1))%N.
Proof.
  intros H. rewrite N.eqb_eq. change 1%N with (N.ones 1) at 1.
  rewrite N.ldiff_ones_r, N.shiftl_mul_pow2, N.shiftr_div_pow2. change (2^1)%N with 2%N. lia.
Qed.

Lemma increment_nonce_spec n : nonce_wf n ->
  nonce_wf (increment_nonce n) /\ nval (increment_nonce n) = (nval n + 2) mod 2 ^ 48.
Proof.
  intros H. destruct (nonce_cases n H) as (a & b & c & d & e & f & -> & Ha & Hb & Hc & Hd & He & Hf).
  unfold increment_nonce. cbn [rev app].
  assert (Hm : ((f + 2) mod 256 < 256)%N) by lia.
  pose proof (ldiff_1_small _ Hm) as HL.
  assert (WF : forall a b c d e f, (a < 256)%N -> (b < 256)%N -> (c < 256)%N -> (d < 256)%N -> (e < 256)%N -> (f < 256)%N ->
               nonce_wf [a;b;c;d;e;f]).
  { intros; split; [|reflexivity]. repeat (apply wf_cons; split; [assumption|]). constructor. }
  destruct (N.eqb (N.ldiff ((f + 2) mod 256) 1) 0) eqn:EL.
  - assert (Hf' : ((f + 2) mod 256 = 0 \/ (f + 2) mod 256 = 1)%N) by (apply HL; reflexivity).
    assert (Hf2 : (f = 254 \/ f = 255)%N) by lia.
    cbn [carry_loop].
    repeat match goal with
    | |- context [N.eqb ?x 0] => destruct (N.eqb_spec x 0)
    end; cbn [rev app];
    (split; [apply WF; lia | rewrite !nval_eq; lia]).
  - assert (Hf' : (~ ((f + 2) mod 256 = 0 \/ (f + 2) mod 256 = 1))%N) by (rewrite <- HL; discriminate).
    assert (Hf2 : (f < 254)%N) by lia.
    cbn [rev app]. split; [apply WF; lia|]. rewrite !nval_eq. lia.
Qed.

(** * Sending *)

Lemma is_valid_nval now s : nonce_wf (s_send s) ->
  common_is_valid now s = true -> nval (s_send s) < 2 ^ 48 - 2 ^ 32.
Proof.
  intros H. destruct (nonce_cases _ H) as (a & b & c & d & e & f & E & Ha & Hb & Hc & Hd & He & Hf).
  unfold common_is_valid. rewrite E, nval_eq. cbn [nth].
  destruct (N.eqb_spec a 255), (N.eqb_spec b 255); cbn [andb]; intros HV; try discriminate; lia.
Qed.

Lemma accept_send now s n : s_send (fst (accept_nonce now s n)) = s_send s.
Proof.
  unfold accept_nonce. destruct (is_nonce_valid now s n); [|reflexivity].
  unfold reorder_check. destruct (_ <? 0).
  - destruct (if (64 <=? _)%N then _ else _) as [seen1|]; [|reflexivity].
    match goal with |- context [match ?x with None => RUB | Some _ => _ end] => destruct x end; reflexivity.
  - destruct (_ =? 0); [reflexivity|]. destruct (shl64 _ _); [|reflexivity].
    destruct (negb _); reflexivity.
Qed.

Lemma superseded_send now s : s_send (common_superseded now s) = s_send s.
Proof. unfold common_superseded. destruct (_ <? _); reflexivity. Qed.

Lemma sess_run_sent l : forall s, nonce_wf (s_send s) -> nval (s_send s) < 2 ^ 48 - 2 ^ 32 + 2 ->
  let '(s', out) := sess_run s l in
  nonce_wf (s_send s') /\
  nval (s_send s') = nval (s_send s) + 2 * Z.of_nat (length out) /\
  nval (s_send s') < 2 ^ 48 - 2 ^ 32 + 2 /\
  Forall nonce_wf out /\
  forall i n, nth_error out i = Some n -> nval n = nval (s_send s) + 2 * Z.of_nat i.
Proof.
  induction l as [|o l IH]; intros s Hw Hb; cbn [sess_run].
  - refine (conj Hw (conj _ (conj Hb (conj _ _)))); cbn [length]; [lia|constructor|].
    intros i n Hi. destruct i; discriminate.
  - destruct (sess_step s o) as [s1 out1] eqn:E1.
    assert (H1 : nonce_wf (s_send s1) /\ nval (s_send s1) < 2 ^ 48 - 2 ^ 32 + 2 /\
                 ((out1 = [] /\ s_send s1 = s_send s) \/
                  (out1 = [s_send s] /\ nval (s_send s1) = nval (s_send s) + 2))).
    { destruct o as [now|now n|now]; cbn [sess_step] in E1.
      - unfold guarded_send in E1. destruct (common_is_valid now s) eqn:HV.
        + cbn [put_common_header skipn] in E1. inversion E1; subst; clear E1. cbn [s_send set_send].
          pose proof (is_valid_nval now s Hw HV) as HB.
          destruct (increment_nonce_spec _ Hw) as [Hw' Hv'].
          pose proof (nval_range _ Hw).
          rewrite Z.mod_small in Hv' by lia. repeat split; try apply Hw'; try lia. right; split; auto.
        + inversion E1; subst. auto.
      - inversion E1; subst. rewrite accept_send. auto.
      - inversion E1; subst. rewrite superseded_send. auto. }
    destruct H1 as (Hw1 & Hb1 & Hc). specialize (IH s1 Hw1 Hb1).
    destruct (sess_run s1 l) as [s2 out2]. destruct IH as (Hw2 & Hv2 & Hb2 & HF & Hi2).
    destruct Hc as [[-> Es] | [-> Ev]]; cbn [app length].
    + rewrite Es in *. auto.
    + refine (conj Hw2 (conj _ (conj Hb2 (conj _ _)))).
      * lia.
      * constructor; auto.
      * intros i n Hn. destruct i as [|i]; cbn [nth_error] in Hn.
        -- inversion Hn; subst. lia.
        -- rewrite (Hi2 i n Hn). lia.
Qed.

Lemma init_send_wf now ini compat rnd :
  nonce_wf (s_send (common_init now ini compat rnd)) /\
  nval (s_send (common_init now ini compat rnd)) = if ini then 3 else 2.
Proof.
  destruct ini; cbn [s_send common_init]; rewrite ?nval_eq; split; try reflexivity;
    (split; [apply wf_bytesb_spec; reflexivity | reflexivity]).
Qed.

Lemma run_init_sent now ini compat rnd l :
  let '(s', out) := sess_run (common_init now ini compat rnd) l in
  Forall nonce_wf out /\
  2 * Z.of_nat (length out) < 2 ^ 48 - 2 ^ 32 /\
  forall i n, nth_error out i = Some n -> nval n = (if ini then 3 else 2) + 2 * Z.of_nat i.
Proof.
  destruct (init_send_wf now ini compat rnd) as [Hw Hv].
  pose proof (sess_run_sent l _ Hw) as H.
  rewrite Hv in H. destruct (sess_run _ l) as [s' out].
  destruct H as (_ & Hl & Hb & HF & Hi). { destruct ini; lia. }
  split; [auto|]. split; [destruct ini; lia|auto].
Qed.

Lemma sent_nodup now ini compat rnd l :
  NoDup (snd (sess_run (common_init now ini compat rnd) l)).
Proof.
  pose proof (run_init_sent now ini compat rnd l) as H.
  destruct (sess_run _ l) as [s' out]. destruct H as (HF & _ & Hi). cbn [snd].
  apply NoDup_nth_error. intros i j Hlt E.
  destruct (nth_error out i) as [a|] eqn:Ea; [|apply nth_error_None in Ea; lia].
  symmetry in E. pose proof (Hi _ _ Ea). pose proof (Hi _ _ E). lia.
Qed.

Lemma sent_counter now ini compat rnd l i n :
  nth_error (snd (sess_run (common_init now ini compat rnd) l)) i = Some n ->
  length n = 6%nat /\ Z.of_N (be_val n) = (if ini then 3 else 2) + 2 * Z.of_nat i /\ Z.of_N (be_val n) < 2 ^ 48 - 2 ^ 32 + 2.
Proof.
  intros H. pose proof (run_init_sent now ini compat rnd l) as HR.
  destruct (sess_run _ l) as [s' out]. destruct HR as (HF & Hb & Hi). cbn [snd] in H.
  pose proof (Hi _ _ H) as Hv. apply nth_error_In in H as HIn.
  rewrite Forall_forall in HF. destruct (HF _ HIn) as [_ HL].
  assert (i < length out)%nat by (apply nth_error_Some; congruence).
  fold (nval n). split; [exact HL|]. split; [exact Hv|]. destruct ini; lia.
Qed.

Lemma directions_disjoint now1 c1 r1 l1 now2 c2 r2 l2 n :
  In n (snd (sess_run (common_init now1 true c1 r1) l1)) ->
  In n (snd (sess_run (common_init now2 false c2 r2) l2)) -> False.
Proof.
  intros H1 H2. apply In_nth_error in H1 as [i Hi]. apply In_nth_error in H2 as [j Hj].
  apply sent_counter in Hi as (_ & E1 & _). apply sent_counter in Hj as (_ & E2 & _). lia.
Qed.

(** * Receiving *)

Lemma age_loop_spec r : forall acc n, length r = length n ->
  age_loop acc r n = acc * 2 ^ (8 * Z.of_nat (length r)) + (Z.of_N (be_val r) - Z.of_N (be_val n)).
Proof.
  induction r as [|x r IH]; intros acc [|y n] HL; try discriminate; cbn [age_loop].
  - cbn. lia.
  - injection HL as HL. rewrite IH by auto. cbn [length be_val]. rewrite <- HL.
    replace (8 * Z.of_nat (S (length r))) with (8 + 8 * Z.of_nat (length r)) by lia.
    rewrite Z.pow_add_r by lia. change (2^8) with 256.
    replace (Z.of_N (x * 2 ^ (8 * N.of_nat (length r)) + be_val r)%N) with
      (Z.of_N x * 2 ^ (8 * Z.of_nat (length r)) + Z.of_N (be_val r)).
    2:{ rewrite N2Z.inj_add, N2Z.inj_mul, N2Z.inj_pow, N2Z.inj_mul, nat_N_Z. reflexivity. }
    replace (Z.of_N (y * 2 ^ (8 * N.of_nat (length r)) + be_val n)%N) with
      (Z.of_N y * 2 ^ (8 * Z.of_nat (length r)) + Z.of_N (be_val n)).
    2:{ rewrite N2Z.inj_add, N2Z.inj_mul, N2Z.inj_pow, N2Z.inj_mul, nat_N_Z. reflexivity. }
    nia.
Qed.

Lemma age_val r n : nonce_wf r -> nonce_wf n ->
  Z.shiftr (age_loop 0 r n) 1 = (nval r - nval n) / 2.
Proof.
  intros [Hr Lr] [Hn Ln]. rewrite age_loop_spec by congruence.
  rewrite Z.shiftr_div_pow2 by lia. unfold nval. f_equal.
Qed.

Lemma msb_parity n : nonce_wf n ->
  Z.odd (nval n / 2 ^ 40) = N.odd (hd 0%N n).
Proof.
  intros H. destruct (nonce_cases n H) as (a & b & c & d & e & f & -> & Ha & Hb & Hc & Hd & He & Hf).
  rewrite nval_eq. cbn [hd].
  replace (_ / 2 ^ 40) with (Z.of_N a) by lia.
  destruct a as [|[p|p|]]; reflexivity.
Qed.

Lemma land1_eq a b : N.eqb (N.land a 1) (N.land b 1) = Bool.eqb (N.odd a) (N.odd b).
Proof.
  change 1%N with (N.ones 1). rewrite !N.land_ones. change (2^1)%N with 2%N.
  rewrite <- !N.bit0_mod, !N.bit0_odd.
  destruct (N.odd a), (N.odd b); reflexivity.
Qed.

(** Relation of a session to the history of accepted packets.  [first] is the
    initial receive nonce. *)
Record win_inv (first : Z) (h : list arrival) (s : session) : Prop := {
  wi_wf : nonce_wf (s_recv s);
  wi_even : N.odd (hd 0%N (s_recv s)) = false;
  wi_newest : match newest h with
              | None => h = [] /\ nval (s_recv s) = first /\ s_reorder_timeout s = 0 /\ s_seen s = 0%N
              | Some m => nval (s_recv s) = a_nonce m /\ s_reorder_timeout s = a_time m + 10000
              end;
  wi_bound : forall a, In a h -> first < a_nonce a <= nval (s_recv s);
  wi_parity : forall a, In a h -> (a_nonce a - first) mod 2 = 0;
  wi_first : 0 <= first <= 1 /\ first <= nval (s_recv s) /\ (nval (s_recv s) - first) mod 2 = 0;
  wi_seen_small : (s_seen s < 2 ^ 64)%N;
  wi_seen : forall k, (k < 64)%N ->
    (N.testbit (s_seen s) k = true <->
     h <> [] /\
     (nval (s_recv s) - 2 * (Z.of_N k + 1) = first \/
      In (nval (s_recv s) - 2 * (Z.of_N k + 1)) (map a_nonce h)))
}.

Lemma newest_None h : newest h = None <-> h = [].
Proof.
  split; [|intros ->; reflexivity].
  destruct h as [|a h]; [auto|]. cbn [newest]. destruct (newest h); [destruct (_ <? _)|]; discriminate.
Qed.

Lemma newest_max h m : newest h = Some m -> In m h /\ forall a, In a h -> a_nonce a <= a_nonce m.
Proof.
  revert m. induction h as [|a h IH]; intros m H; [discriminate|]. cbn [newest] in H.
  destruct (newest h) as [b|] eqn:E.
  - destruct (IH b eq_refl) as [Hin Hmax].
    destruct (Z.ltb_spec (a_nonce b) (a_nonce a)); inversion H; subst; clear H; split.
    + left; auto.
    + intros x [->|Hx]; [lia|]. specialize (Hmax x Hx). lia.
    + right; auto.
    + intros x [->|Hx]; [lia|]. apply Hmax; auto.
  - inversion H; subst. apply newest_None in E. subst. split; [left; auto|].
    intros x [->|[]]. lia.
Qed.

Lemma accepted_before_In h n : accepted_before h n = true <-> In n (map a_nonce h).
Proof.
  unfold accepted_before. rewrite existsb_exists, in_map_iff. split.
  - intros (x & Hx & E). exists x. split; [lia|auto].
  - intros (x & E & Hx). exists x. split; [auto|lia].
Qed.

Lemma bit_mod64 x k : (k < 64)%N -> N.testbit (x mod 2 ^ 64) k = N.testbit x k.
Proof. intros H. apply N.mod_pow2_bits_low; auto. Qed.

Lemma lor_small a b : (a < 2 ^ 64 -> b < 2 ^ 64 -> N.lor a b < 2 ^ 64)%N.
Proof.
  intros Ha Hb.
  destruct (N.eq_dec (N.lor a b) 0) as [->|Hn]; [lia|].
  apply N.log2_lt_pow2; [lia|]. rewrite N.log2_lor.
  destruct (N.eq_dec a 0) as [->|?]; destruct (N.eq_dec b 0) as [->|?];
  try (apply N.max_lub_lt); try (apply N.log2_lt_pow2; lia); cbn; lia.
Qed.

Lemma shl64_one k : (k < 64)%N -> shl64 1 k = Some (2 ^ k)%N.
Proof.
  intros H. unfold shl64. destruct (N.ltb_spec k 64); [|lia].
  rewrite N.shiftl_1_l, N.mod_small; auto. apply N.pow_lt_mono_r; lia.
Qed.

Lemma land_pow2 x k : N.eqb (N.land x (2 ^ k)) 0 = negb (N.testbit x k).
Proof.
  destruct (N.testbit x k) eqn:E; cbn.
  - apply N.eqb_neq. intros H. assert (T : N.testbit (N.land x (2 ^ k)) k = true).
    { rewrite N.land_spec, E, N.pow2_bits_true. reflexivity. }
    rewrite H in T. rewrite N.bits_0 in T. discriminate.
  - apply N.eqb_eq. apply N.bits_inj_0. intros j. rewrite N.land_spec, N.pow2_bits_eqb.
    destruct (N.eqb_spec k j); subst; rewrite ?E; auto. apply andb_false_r.
Qed.

Lemma accept_refines first h s now n :
  0 <= now -> win_inv first h s -> nonce_wf n -> (nval n - first) mod 2 = 0 ->
  let v := spec_verdict first h now (nval n) in
  snd (accept_nonce now s n) = v /\
  win_inv first (if is_accepted v then mk_arrival now (nval n) :: h else h) (fst (accept_nonce now s n)).
Proof.
  intros Hnow I Hn Hp v. subst v.
  pose proof I as [Iwf Iev Inew Ibnd Ipar Ifst Ismall Iseen].
  pose proof (nval_range _ Iwf) as Rr. pose proof (nval_range _ Hn) as Rn.
  unfold spec_verdict, accept_nonce, is_nonce_valid.
  rewrite msb_parity by auto. rewrite land1_eq, Iev.
  destruct (N.odd (hd 0%N n)) eqn:Odd; cbn [Bool.eqb negb].
  { cbn [snd fst is_accepted]. split; [reflexivity|exact I]. }
  rewrite age_val by auto.
  remember (nval (s_recv s)) as r eqn:Hr0 in *. remember (nval n) as x eqn:Hx0 in *.
  assert (Hpar : (r - x) mod 2 = 0) by lia.
  (* new packet *)
  assert (NEW : r < x ->
     (let '(s', v) := match reorder_check now s n ((r - x) / 2) with
          | RUB => (s, VUB) | RDuplicate => (s, VRejected) | RNew s' => (s', VNew) | RReordered s' => (s', VReordered) end in
      v = VNew /\ win_inv first (mk_arrival now x :: h) s')).
  { intros Hlt. unfold reorder_check.
    replace ((r - x) / 2 <? 0) with true by lia.
    set (sh := Z.to_N (- ((r - x) / 2))).
    assert (Hsh : Z.of_N sh = (x - r) / 2) by lia.
    assert (S1 : exists seen1, (if (64 <=? sh)%N then Some 0%N else shl64 (s_seen s) sh) = Some seen1 /\
                 (seen1 < 2 ^ 64)%N /\
                 forall k, (k < 64)%N -> N.testbit seen1 k = ((sh <=? k)%N && N.testbit (s_seen s) (k - sh))%bool).
    { destruct (N.leb_spec 64 sh).
      - exists 0%N. split; [reflexivity|]. split; [lia|]. intros k Hk. rewrite N.bits_0.
        replace (sh <=? k)%N with false by lia. reflexivity.
      - unfold shl64. replace (sh <? 64)%N with true by lia. eexists. split; [reflexivity|].
        split; [apply N.mod_lt; lia|]. intros k Hk. rewrite bit_mod64 by auto.
        destruct (N.leb_spec sh k); cbn [andb].
        + apply N.shiftl_spec_high'. lia.
        + apply N.shiftl_spec_low. lia. }
    destruct S1 as (seen1 & -> & Hs1 & Hb1).
    assert (S2 : exists seen2, (if (sh <=? 64)%N
               then match shl64 1 (sh - 1)%N with Some b => Some (N.lor seen1 b) | None => None end
               else Some seen1) = Some seen2 /\ (seen2 < 2 ^ 64)%N /\
               forall k, (k < 64)%N -> N.testbit seen2 k = (N.testbit seen1 k || (N.eqb (sh - 1) k))%bool).
    { destruct (N.leb_spec sh 64).
      - rewrite shl64_one by lia. eexists; split; [reflexivity|]. split.
        + apply lor_small; auto. apply N.pow_lt_mono_r; lia.
        + intros k Hk. rewrite N.lor_spec, N.pow2_bits_eqb. reflexivity.
      - eexists; split; [reflexivity|]. split; auto. intros k Hk.
        replace (N.eqb (sh - 1) k) with false by lia. rewrite orb_false_r. reflexivity. }
    destruct S2 as (seen2 & -> & Hs2 & Hb2).
    split; [reflexivity|].
    constructor; cbn [set_window s_recv s_reorder_timeout s_seen]; rewrite <- ?Hx0; auto.
    - cbn [newest]. destruct (newest h) as [m|] eqn:Em.
      + destruct Inew as [E1 E2]. replace (a_nonce m <? a_nonce (mk_arrival now x)) with true by (cbn [a_nonce]; lia).
        split; reflexivity.
      + split; reflexivity.
    - intros a [<-|Ha]; cbn [a_nonce]; [lia|]. specialize (Ibnd a Ha). lia.
    - intros a [<-|Ha]; cbn [a_nonce]; auto.
    - lia.
    - intros k Hk. rewrite Hb2, Hb1 by auto. cbn [map In a_nonce].
      rewrite orb_true_iff, andb_true_iff.
      assert (HH : (mk_arrival now x :: h) <> []) by discriminate.
      split.
      + intros [[Hle Hb]|Heq]; (split; [exact HH|]).
        * apply Iseen in Hb as [_ Hb]; [|lia].
          replace (x - 2 * (Z.of_N k + 1)) with (r - 2 * (Z.of_N (k - sh) + 1)) by lia.
          destruct Hb; auto.
        * assert (Ek : x - 2 * (Z.of_N k + 1) = r) by lia. rewrite Ek.
          destruct (newest h) as [m|] eqn:Em.
          -- right. right. destruct Inew as [E1 _]. rewrite E1. apply in_map.
             apply newest_max in Em. apply Em.
          -- left. destruct Inew as (_ & E & _). exact E.
      + intros [_ HS].
        assert (Hle : x - 2 * (Z.of_N k + 1) <= r).
        { destruct HS as [E|[E|E]]; [lia|lia|].
          apply in_map_iff in E as (a & E & Ha). specialize (Ibnd a Ha). lia. }
        destruct (Z.eq_dec (x - 2 * (Z.of_N k + 1)) r) as [E|NE].
        * right. lia.
        * left. split; [lia|]. apply Iseen; [lia|].
          replace (r - 2 * (Z.of_N (k - sh) + 1)) with (x - 2 * (Z.of_N k + 1)) by lia.
          destruct (newest h) as [m|] eqn:Em.
          -- split; [intros ->; discriminate|]. destruct HS as [E|[E|E]]; [auto|lia|auto].
          -- destruct Inew as (-> & E0 & _). exfalso. destruct HS as [E|[E|[]]]; lia. }
  destruct (newest h) as [m|] eqn:Em.
  - destruct Inew as [Er Et].
    destruct (Z.ltb_spec (a_nonce m) x) as [Hlt|Hge].
    + replace (0 <=? (r - x) / 2) with false by lia.
      assert (Hlt' : r < x) by lia. specialize (NEW Hlt').
      destruct (match reorder_check now s n ((r - x) / 2) with RUB => _ | RDuplicate => _ | RNew s' => _ | RReordered s' => _ end) as [s' v'].
      destruct NEW as [-> NI]. cbn [fst snd is_accepted]. split; [reflexivity|exact NI].
    + replace (0 <=? (r - x) / 2) with true by lia. rewrite Et. unfold timed_out.
      assert (Hne : h <> []) by (intros ->; discriminate).
      destruct (Z.leb_spec (a_time m + 10000) now) as [Hto|Hto].
      { replace (now <? a_time m + 10000) with false by lia. rewrite andb_false_r.
        destruct (accepted_before h x); [|destruct (x <=? first)]; cbn [fst snd is_accepted]; split; (reflexivity || exact I). }
      replace (now <? a_time m + 10000) with true by lia. rewrite andb_true_r.
      destruct (Z.ltb_spec 64 ((r - x) / 2)) as [Hbig|Hok].
      { replace (a_nonce m - x <=? 2 * 64) with false by lia.
        destruct (accepted_before h x); [|destruct (x <=? first)]; cbn [fst snd is_accepted]; split; (reflexivity || exact I). }
      replace (a_nonce m - x <=? 2 * 64) with true by lia.
      unfold reorder_check. replace ((r - x) / 2 <? 0) with false by lia.
      destruct (Z.eqb_spec ((r - x) / 2) 0) as [E0|E0].
      { assert (x = a_nonce m) by lia. replace (accepted_before h x) with true.
        2:{ symmetry. apply accepted_before_In. subst x. rewrite H. apply in_map. apply (newest_max h m Em). }
        cbn [fst snd is_accepted]; split; (reflexivity || exact I). }
      set (k := Z.to_N ((r - x) / 2 - 1)).
      assert (Hk : (k < 64)%N) by lia. rewrite shl64_one by auto.
      rewrite land_pow2, negb_involutive.
      assert (Ek : r - 2 * (Z.of_N k + 1) = x) by lia.
      pose proof (Iseen k Hk) as HS. rewrite Ek in HS.
      destruct (N.testbit (s_seen s) k) eqn:Eb.
      * destruct (proj1 HS eq_refl) as [_ HS'].
        cbn [fst snd].
        destruct (accepted_before h x) eqn:Ea; [cbn [is_accepted]; split; (reflexivity || exact I)|].
        destruct HS' as [HS'|HS'].
        -- replace (x <=? first) with true by lia. cbn [is_accepted]; split; (reflexivity || exact I).
        -- apply accepted_before_In in HS'. congruence.
      * assert (HN : ~ (x = first \/ In x (map a_nonce h))).
        { intros HH. assert (false = true); [|discriminate]. apply HS. auto. }
        destruct (accepted_before h x) eqn:Ea.
        { apply accepted_before_In in Ea. tauto. }
        destruct (Z.leb_spec x first) as [Hxf|Hxf].
        { (* numbers not above [first] cannot be in range: they are older than the window start *)
          exfalso.
          assert (Hcase : x < first) by (destruct (Z.eq_dec x first); [tauto|lia]).
          lia. }
        cbn [fst snd is_accepted]. split; [reflexivity|].
        constructor; cbn [set_window s_recv s_reorder_timeout s_seen]; rewrite <- ?Hr0; auto.
        -- cbn [newest]. rewrite Em. cbn [a_nonce]. replace (a_nonce m <? x) with false by lia. split; auto.
        -- intros a [<-|Ha]; cbn [a_nonce]; [lia|]. auto.
        -- intros a [<-|Ha]; cbn [a_nonce]; auto.
        -- apply lor_small; auto. apply N.pow_lt_mono_r; lia.
        -- intros j Hj. rewrite N.lor_spec, N.pow2_bits_eqb, orb_true_iff. rewrite (Iseen j Hj).
           cbn [map In a_nonce]. rewrite N.eqb_eq. split.
           ++ intros [[_ [HH|HH]]| <-]; (split; [discriminate|]); auto.
           ++ intros [_ [HH|[HH|HH]]]; auto. right. lia.
  - destruct Inew as (-> & Er & Et & Es).
    destruct (Z.ltb_spec first x) as [Hlt|Hge].
    + replace (0 <=? (r - x) / 2) with false by lia.
      assert (Hlt' : r < x) by lia. specialize (NEW Hlt').
      destruct (match reorder_check now s n ((r - x) / 2) with RUB => _ | RDuplicate => _ | RNew s' => _ | RReordered s' => _ end) as [s' v'].
      destruct NEW as [-> NI]. cbn [fst snd is_accepted]. split; [reflexivity|exact NI].
    + replace (0 <=? (r - x) / 2) with true by lia. rewrite Et. unfold timed_out.
      replace (0 <=? now) with true by lia. cbn [fst snd is_accepted]. split; [reflexivity|exact I].
Qed.

(** * Whole receive histories *)

Lemma sent_by_spec ini n : sent_by ini n ->
  nonce_wf n /\ (nval n - first_nonce (negb ini)) mod 2 = 0 /\ first_nonce (negb ini) < nval n.
Proof.
  intros (now & c & r & ops & H).
  pose proof (run_init_sent now ini c r ops) as HR.
  destruct (sess_run _ ops) as [s' out]. cbn [snd] in H. destruct HR as (HF & Hb & Hi).
  rewrite Forall_forall in HF. apply In_nth_error in H as Hn. destruct Hn as [i Hn].
  apply Hi in Hn. split; [apply HF; auto|]. rewrite Hn. unfold first_nonce. destruct ini; cbn [negb]; lia.
Qed.

Lemma init_win_inv now ini compat rnd :
  win_inv (first_nonce ini) [] (common_init now ini compat rnd).
Proof.
  assert (E : nval (s_recv (common_init now ini compat rnd)) = first_nonce ini).
  { destruct ini; reflexivity. }
  constructor.
  - destruct ini; (split; [apply wf_bytesb_spec; reflexivity | reflexivity]).
  - destruct ini; reflexivity.
  - cbn [newest]. auto.
  - intros a [].
  - intros a [].
  - rewrite E. unfold first_nonce. destruct ini; repeat split; lia.
  - cbn [common_init s_seen]. lia.
  - intros k Hk. cbn [common_init s_seen]. rewrite N.bits_0. split; [discriminate|]. intros [HH _]. congruence.
Qed.

Lemma recv_run_refines first l : forall h s, win_inv first h s ->
  Forall (fun '(t, n) => 0 <= t /\ nonce_wf n /\ (nval n - first) mod 2 = 0) l ->
  recv_run s l = spec_run first h (map (fun '(t, n) => mk_arrival t (nval n)) l).
Proof.
  induction l as [|[t n] l IH]; intros h s I HF; cbn [recv_run spec_run map]; [reflexivity|].
  inversion HF as [|? ? Hx HF']; subst. cbn beta iota in Hx. destruct Hx as (Ht & Hn & Hp).
  destruct (accept_refines first h s t n Ht I Hn Hp) as [Ev I'].
  destruct (accept_nonce t s n) as [s' v] eqn:E. cbn [fst snd] in Ev, I'.
  cbn [a_time a_nonce]. rewrite <- Ev in I' |- *. rewrite (IH _ _ I' HF'). reflexivity.
Qed.

Lemma recv_run_spec now ini compat rnd l :
  Forall (fun '(t, n) => 0 <= t /\ sent_by (negb ini) n) l ->
  recv_run (common_init now ini compat rnd) l =
  spec_run (first_nonce ini) [] (map (fun '(t, n) => mk_arrival t (Z.of_N (be_val n))) l).
Proof.
  intros HF. apply recv_run_refines; [apply init_win_inv|].
  eapply Forall_impl; [|exact HF]. intros [t n] [Ht Hs]. apply sent_by_spec in Hs.
  rewrite negb_involutive in Hs. tauto.
Qed.

Lemma accepted_not_before first h now n :
  is_accepted (spec_verdict first h now n) = true -> ~ In n (map a_nonce h).
Proof.
  unfold spec_verdict. intros H Hin. apply accepted_before_In in Hin as Hb.
  destruct (Z.odd _); [discriminate|].
  destruct (newest h) as [m|] eqn:Em.
  - apply newest_max in Em as [_ Hmax]. apply in_map_iff in Hin as (a & Ea & Ha).
    specialize (Hmax a Ha). destruct (Z.ltb_spec (a_nonce m) n); [lia|].
    rewrite Hb in H. discriminate.
  - apply newest_None in Em. subst. destruct Hin.
Qed.

(* No use of time or of the most significant byte: whatever arrives at any time
   with the peer's parity is accepted at most once. *)
Lemma accepted_nodup_gen first l : forall h s, win_inv first h s ->
  Forall (fun '(t, n) => 0 <= t /\ nonce_wf n /\ (nval n - first) mod 2 = 0) l ->
  NoDup (accepted_nonces l (recv_run s l)) /\
  forall n, In n (accepted_nonces l (recv_run s l)) -> ~ In (nval n) (map a_nonce h).
Proof.
  induction l as [|[t n] l IH]; intros h s I HF; cbn [recv_run accepted_nonces].
  - split; [constructor|]. intros n [].
  - inversion HF as [|? ? Hx HF']; subst. cbn beta iota in Hx. destruct Hx as (Ht & Hn & Hp).
    destruct (accept_refines first h s t n Ht I Hn Hp) as [Ev I'].
    destruct (accept_nonce t s n) as [s' v] eqn:E. cbn [fst snd] in Ev, I'.
    destruct (IH _ _ I' HF') as [HN HI]. clear IH.
    cbn [accepted_nonces].
    destruct (is_accepted v) eqn:Ea; rewrite Ev in Ea; rewrite Ea in HI.
    + split.
      * constructor; [|exact HN]. intros Hin. apply (HI n Hin). left; reflexivity.
      * intros n' [<-|Hin'] Hin; [exact (accepted_not_before _ _ _ _ Ea Hin)|].
        apply (HI n' Hin'). right. exact Hin.
    + split; auto.
Qed.

Lemma accepted_nodup now ini compat rnd l :
  Forall (fun '(t, n) => 0 <= t /\ sent_by (negb ini) n) l ->
  NoDup (accepted_nonces l (recv_run (common_init now ini compat rnd) l)).
Proof.
  intros HF. apply (accepted_nodup_gen (first_nonce ini) l []); [apply init_win_inv|].
  eapply Forall_impl; [|exact HF]. intros [t n] [Ht Hs]. apply sent_by_spec in Hs.
  rewrite negb_involutive in Hs. tauto.
Qed.

Lemma recv_run_length l : forall s, length (recv_run s l) = length l.
Proof.
  induction l as [|[t n] l IH]; intros s; cbn [recv_run length]; [reflexivity|].
  destruct (accept_nonce t s n). cbn [length]. auto.
Qed.

Lemma recv_no_ub now ini compat rnd l :
  Forall (fun '(t, n) => 0 <= t /\ nonce_wf n) l ->
  ~ In VUB (recv_run (common_init now ini compat rnd) l).
Proof.
  (* undefined shifts are excluded by the age bounds alone, for every nonce *)
  generalize (common_init now ini compat rnd). intros s HF. revert s.
  induction l as [|[t n] l IH]; intros s; cbn [recv_run]; [tauto|].
  inversion HF as [|? ? _ HF']; subst.
  destruct (accept_nonce t s n) as [s' v] eqn:E.
  intros [->|Hin]; [|exact (IH HF' s' Hin)]. clear IH HF HF'.
  unfold accept_nonce in E. destruct (is_nonce_valid t s n) as [age|] eqn:Ev; [|discriminate].
  unfold is_nonce_valid in Ev. destruct (negb _); [discriminate|].
  set (a := Z.shiftr _ 1) in Ev.
  assert (Hage : age <= 64).
  { destruct (Z.leb_spec 0 a); [destruct (timed_out _ _); [discriminate|];
      destruct (Z.ltb_spec 64 a); [discriminate|]|]; inversion Ev; subst; lia. }
  clear Ev a. unfold reorder_check in E.
  destruct (Z.ltb_spec age 0).
  - unfold shl64 in E.
    destruct (N.leb_spec 64 (Z.to_N (- age))).
    + destruct (N.leb_spec (Z.to_N (- age)) 64); [|discriminate].
      destruct (N.ltb_spec (Z.to_N (- age) - 1) 64); [discriminate|lia].
    + destruct (N.ltb_spec (Z.to_N (- age)) 64); [|lia].
      destruct (N.leb_spec (Z.to_N (- age)) 64); [|lia].
      destruct (N.ltb_spec (Z.to_N (- age) - 1) 64); [discriminate|lia].
  - destruct (Z.eqb_spec age 0); [discriminate|].
    unfold shl64 in E. destruct (N.ltb_spec (Z.to_N (age - 1)) 64); [|lia].
    destruct (negb _); discriminate.
Qed.

(** * Refutations: reflected packets *)

Definition demo_nonce (k : N) : bytes := [0; 0; 0; 0; 0; k]%N.

Lemma demo_sent ini (j : nat) : (j < 100)%nat ->
  sent_by ini (demo_nonce ((if ini then 3 else 2) + 2 * N.of_nat j)).
Proof.
  intros Hj. exists 0, false, 0, (repeat (SSend 0) 100).
  pose proof (eq_refl (snd (sess_run (common_init 0 ini false 0) (repeat (SSend 0) 100)))) as E.
  assert (H : existsb (fun n => if list_eq_dec N.eq_dec n (demo_nonce ((if ini then 3 else 2) + 2 * N.of_nat j)) then true else false)
                (snd (sess_run (common_init 0 ini false 0) (repeat (SSend 0) 100))) = true).
  { assert (HA : forallb (fun j => existsb (fun n => if list_eq_dec N.eq_dec n (demo_nonce ((if ini then 3 else 2) + 2 * N.of_nat j)) then true else false)
                (snd (sess_run (common_init 0 ini false 0) (repeat (SSend 0) 100)))) (seq 0 100) = true).
    { destruct ini; vm_compute; reflexivity. }
    rewrite forallb_forall in HA. apply HA. apply in_seq. lia. }
  apply existsb_exists in H as (n & Hn & Heq).
  destruct (list_eq_dec N.eq_dec n _) as [->|]; [exact Hn|discriminate].
Qed.

Lemma replay_after_reflection :
  exists (l : list (Z * bytes)) (n : bytes),
    Forall (fun '(t, m) => 0 <= t /\ (sent_by true m \/ sent_by false m)) l /\
    sent_by true n /\
    accepted_nonces l (recv_run (common_init 0 false false 0) l) = [n; demo_nonce 8; n].
Proof.
  exists [(1, demo_nonce 5); (2, demo_nonce 8); (3, demo_nonce 5)], (demo_nonce 5).
  assert (H5 : sent_by true (demo_nonce 5)) by (apply (demo_sent true 1); lia).
  assert (H8 : sent_by false (demo_nonce 8)) by (apply (demo_sent false 3); lia).
  split; [|split; [exact H5 | vm_compute; reflexivity]].
  repeat (constructor; [split; [lia|auto]|]). constructor.
Qed.

Lemma reflection_accepted :
  exists n, sent_by false n /\ snd (accept_nonce 1 (common_init 0 false false 0) n) = VNew.
Proof.
  exists (demo_nonce 2). split; [apply (demo_sent false 0); lia | vm_compute; reflexivity].
Qed.

(** Every number of the right parity below the limit is really used by some history. *)
Lemma valid_below now s : nonce_wf (s_send s) -> nval (s_send s) < 2 ^ 48 - 2 ^ 32 -> now < s_valid_till s ->
  common_is_valid now s = true.
Proof.
  intros H. destruct (nonce_cases _ H) as (a & b & c & d & e & f & E & Ha & Hb & Hc & Hd & He & Hf).
  unfold common_is_valid, timed_out. rewrite E, nval_eq. cbn [nth].
  destruct (N.eqb_spec a 255), (N.eqb_spec b 255); cbn [andb]; intros HV Ht; lia.
Qed.

Lemma send_many k : forall s, nonce_wf (s_send s) -> nval (s_send s) + 2 * Z.of_nat k < 2 ^ 48 - 2 ^ 32 ->
  0 < s_valid_till s -> length (snd (sess_run s (repeat (SSend 0) k))) = k.
Proof.
  induction k as [|k IH]; intros s Hw Hb Ht; [reflexivity|].
  cbn [repeat sess_run sess_step]. unfold guarded_send. rewrite valid_below by (auto; lia).
  cbn [put_common_header skipn].
  destruct (increment_nonce_spec _ Hw) as [Hw' Hv']. pose proof (nval_range _ Hw).
  rewrite Z.mod_small in Hv' by lia.
  specialize (IH (set_send s (increment_nonce (s_send s)))). cbn [set_send s_send s_valid_till] in IH.
  specialize (IH Hw' ltac:(lia) Ht).
  destruct (sess_run _ (repeat (SSend 0) k)) as [s2 out2]. cbn [snd app length] in *. lia.
Qed.

Lemma sent_by_all (ini : bool) n : nonce_wf n -> (nval n - (if ini then 3 else 2)) mod 2 = 0 ->
  (if ini then 3 else 2) <= nval n < 2 ^ 48 - 2 ^ 32 - 2 -> sent_by ini n.
Proof.
  intros Hn Hp Hb. set (st := if ini then 3 else 2) in *.
  set (i := Z.to_nat ((nval n - st) / 2)).
  exists 0, false, 0, (repeat (SSend 0) (S i)).
  destruct (init_send_wf 0 ini false 0) as [Hw Hv].
  assert (HL : length (snd (sess_run (common_init 0 ini false 0) (repeat (SSend 0) (S i)))) = S i).
  { apply send_many; auto; [|reflexivity]. rewrite Hv. fold st. lia. }
  set (out := snd (sess_run (common_init 0 ini false 0) (repeat (SSend 0) (S i)))) in *.
  destruct (nth_error out i) as [m|] eqn:Em.
  - apply nth_error_In in Em as Hin.
    pose proof (run_init_sent 0 ini false 0 (repeat (SSend 0) (S i))) as HR. subst out.
    destruct (sess_run (common_init 0 ini false 0) (repeat (SSend 0) (S i))) as [s' out]. cbn [snd] in *. destruct HR as (HF & _ & Hi).
    rewrite Forall_forall in HF. specialize (HF m Hin). specialize (Hi i m Em). fold st in Hi.
    replace n with m; [exact Hin|]. apply nval_inj; auto. lia.
  - apply nth_error_None in Em. lia.
Qed.

(** A fresh packet of the peer is refused as soon as the top byte becomes odd. *)
Lemma msb_flip_rejected : exists n, sent_by true n /\ forall now rnd t, 0 <= t ->
  recv_run (common_init now false false rnd) [(t, n)] = [VRejected].
Proof.
  exists [1; 0; 0; 0; 0; 1]%N. split.
  - apply sent_by_all.
    + split; [apply wf_bytesb_spec|]; reflexivity.
    + rewrite nval_eq. reflexivity.
    + rewrite nval_eq. cbn. lia.
  - intros now rnd t Ht. reflexivity.
Qed.

(** * IVs *)

Lemma expand_length n len : length n = COMMON_NONCEBYTES -> length (expand_nonce n len) = len.
Proof.
  intros Hn. unfold expand_nonce. destruct len as [|l]; [reflexivity|].
  rewrite app_length, firstn_length, app_length, firstn_length, repeat_length, Hn.
  unfold COMMON_NONCEBYTES. cbn [length]. lia.
Qed.

Lemma expand_large n len : length n = COMMON_NONCEBYTES -> (7 <= len)%nat ->
  expand_nonce n len = n ++ repeat 0%N (len - 7) ++ [1%N].
Proof.
  intros Hn Hl. unfold expand_nonce. destruct len as [|l]; [lia|].
  unfold COMMON_NONCEBYTES in *.
  rewrite (firstn_all2 n) by lia. rewrite firstn_app, (firstn_all2 n) by lia.
  rewrite <- app_assoc. f_equal. f_equal. rewrite Hn.
  replace (S l - 7)%nat with (l - 6)%nat by lia.
  replace (S l) with ((l - 6) + (S l - (l - 6)))%nat by lia.
  rewrite repeat_app, firstn_app, repeat_length, Nat.sub_diag. cbn [firstn].
  rewrite firstn_all2 by (rewrite repeat_length; lia). apply app_nil_r.
Qed.

Lemma expand_inj n m len : length n = COMMON_NONCEBYTES -> length m = COMMON_NONCEBYTES ->
  (7 <= len)%nat -> expand_nonce n len = expand_nonce m len -> n = m.
Proof.
  intros Hn Hm Hl E. rewrite !expand_large in E by auto.
  apply app_inv_tail in E. exact E.
Qed.

Lemma expand_not_zero n len : length n = COMMON_NONCEBYTES -> (7 <= len)%nat ->
  expand_nonce n len <> repeat 0%N len.
Proof.
  intros Hn Hl E. rewrite expand_large in E by auto.
  assert (H : last (n ++ repeat 0%N (len - 7) ++ [1%N]) 0%N = 1%N).
  { rewrite app_assoc. apply last_last. }
  rewrite E in H.
  assert (R : forall k, last (repeat 0%N k) 0%N = 0%N).
  { induction k as [|k IH]; [reflexivity|]. cbn [repeat last]. destruct k; [reflexivity|exact IH]. }
  rewrite R in H. discriminate.
Qed.

Lemma expand_val n : nonce_wf n -> Z.of_N (be_val (expand_nonce n 16)) = nval n * 2 ^ 80 + 1.
Proof.
  intros [Hw Hl]. rewrite expand_large by (auto; lia). rewrite be_val_app.
  change (16 - 7)%nat with 9%nat. cbn [repeat app].
  change (be_val [0;0;0;0;0;0;0;0;0;1])%N with 1%N.
  change (2 ^ (8 * N.of_nat (length [0;0;0;0;0;0;0;0;0;1]%N)))%N with (2^80)%N. unfold nval. lia.
Qed.

Lemma be_bytes_inj k a b : (a < 2 ^ (8 * N.of_nat k) -> b < 2 ^ (8 * N.of_nat k) ->
  be_bytes k a = be_bytes k b -> a = b)%N.
Proof.
  intros Ha Hb E. apply (f_equal be_val) in E. rewrite !be_val_be_bytes, !N.mod_small in E; auto.
Qed.

Lemma ctr_disjoint n m i j : nonce_wf n -> nonce_wf m -> (i < 2 ^ 79)%N -> (j < 2 ^ 79)%N ->
  ctr_block (expand_nonce n 16) i = ctr_block (expand_nonce m 16) j -> n = m /\ i = j.
Proof.
  intros Hn Hm Hi Hj E. pose proof (nval_range _ Hn). pose proof (nval_range _ Hm).
  pose proof (expand_val n Hn). pose proof (expand_val m Hm).
  apply be_bytes_inj in E; [| change (8 * N.of_nat 16)%N with 128%N; lia ..].
  assert (nval n = nval m) by lia. split; [apply nval_inj; auto|lia].
Qed.

Lemma ctr_zero_disjoint n i j : nonce_wf n -> 2 <= nval n -> (i < 2 ^ 79)%N -> (j < 2 ^ 79)%N ->
  ctr_block (expand_nonce n 16) i <> ctr_block (repeat 0%N 16) j.
Proof.
  intros Hn H2 Hi Hj E. pose proof (nval_range _ Hn). pose proof (expand_val n Hn).
  unfold ctr_block in E. change (be_val (repeat 0%N 16)) with 0%N in E.
  apply be_bytes_inj in E; [| change (8 * N.of_nat 16)%N with 128%N; lia ..]. lia.
Qed.

Lemma sent_ge2 ini n : sent_by ini n -> 2 <= nval n.
Proof.
  intros H. pose proof (sent_by_spec _ _ H) as (_ & Hp & Hb). unfold first_nonce in *. destruct ini; cbn [negb] in *; lia.
Qed.

Lemma sent_wf ini n : sent_by ini n -> nonce_wf n.
Proof. intros H. apply sent_by_spec in H. tauto. Qed.

(** * Lifetime *)

Lemma accept_valid_till now s n : s_valid_till (fst (accept_nonce now s n)) = s_valid_till s.
Proof.
  unfold accept_nonce. destruct (is_nonce_valid now s n); [|reflexivity].
  unfold reorder_check. destruct (_ <? 0).
  - destruct (if (64 <=? _)%N then _ else _) as [seen1|]; [|reflexivity].
    match goal with |- context [match ?x with None => RUB | Some _ => _ end] => destruct x end; reflexivity.
  - destruct (_ =? 0); [reflexivity|]. destruct (shl64 _ _); [|reflexivity].
    destruct (negb _); reflexivity.
Qed.

Lemma sess_step_valid_till s o : s_valid_till (fst (sess_step s o)) <= s_valid_till s.
Proof.
  destruct o as [now|now n|now]; cbn [sess_step].
  - unfold guarded_send. destruct (common_is_valid now s); cbn; lia.
  - cbn [fst]. rewrite accept_valid_till. lia.
  - cbn [fst]. unfold common_superseded. destruct (Z.ltb_spec (now + KEY_VALID_OLD) (s_valid_till s)); cbn [s_valid_till]; lia.
Qed.

Lemma sess_run_valid_till l : forall s, s_valid_till (fst (sess_run s l)) <= s_valid_till s.
Proof.
  induction l as [|o l IH]; intros s; cbn [sess_run]; [cbn; lia|].
  pose proof (sess_step_valid_till s o) as H. destruct (sess_step s o) as [s1 out1]. cbn [fst] in H.
  specialize (IH s1). destruct (sess_run s1 l) as [s2 out2]. cbn [fst] in *. lia.
Qed.

Lemma is_valid_time now s : common_is_valid now s = true -> now < s_valid_till s.
Proof. unfold common_is_valid, timed_out. destruct (_ && _); [discriminate|]. lia. Qed.

Lemma sess_run_app l1 : forall l2 s,
  fst (sess_run s (l1 ++ l2)) = fst (sess_run (fst (sess_run s l1)) l2).
Proof.
  induction l1 as [|o l1 IH]; intros l2 s; cbn [app sess_run]; [reflexivity|].
  destruct (sess_step s o) as [s1 o1]. specialize (IH l2 s1).
  destruct (sess_run s1 (l1 ++ l2)) as [s2 o2]. destruct (sess_run s1 l1) as [s3 o3]. exact IH.
Qed.

Lemma lifetime t0 ini c r ops t :
  common_is_valid t (fst (sess_run (common_init t0 ini c r) ops)) = true -> t < t0 + 3600000.
Proof.
  intros H. apply is_valid_time in H.
  pose proof (sess_run_valid_till ops (common_init t0 ini c r)) as HB.
  cbn [common_init s_valid_till] in HB. unfold KEY_VALID in HB. lia.
Qed.

Lemma lifetime_superseded t0 ini c r ops1 ts ops2 t :
  common_is_valid t (fst (sess_run (common_init t0 ini c r) (ops1 ++ SSupersede ts :: ops2))) = true ->
  t < ts + 60000.
Proof.
  intros H. apply is_valid_time in H. rewrite sess_run_app in H.
  set (s1 := fst (sess_run (common_init t0 ini c r) ops1)) in H.
  cbn [sess_run sess_step] in H.
  pose proof (sess_run_valid_till ops2 (common_superseded ts s1)) as HB.
  destruct (sess_run (common_superseded ts s1) ops2) as [s2 o2]. cbn [fst] in *.
  assert (s_valid_till (common_superseded ts s1) <= ts + 60000).
  { unfold common_superseded, KEY_VALID_OLD. destruct (Z.ltb_spec (ts + 60000) (s_valid_till s1)); cbn [s_valid_till]; lia. }
  lia.
Qed.
