(** Proofs about handshakes to unknown addresses *)
From Verif Require Import Base BaseLemmas BufferModel MethodModel AddrModel AddrSpec AddrProofs UnknownModel UnknownSpec.
Local Open Scope Z_scope.

Lemma interval_eq : table_interval = 1000. Proof. reflexivity. Qed.

(** The place depends on the slice only *)
Lemma entry_slice : forall seed base i a, hash_entry seed base i a = hash_entry seed (base - Z.of_nat i) 0 a.
Proof. intros seed base i a. unfold hash_entry. rewrite Z.sub_0_r. reflexivity. Qed.
Lemma entry_defined : forall seed base i a, ip_address a -> exists kj, hash_entry seed base i a = Ok kj.
Proof.
  intros seed base i a Ha. unfold hash_entry.
  match goal with |- context [address_hash ?h a] => assert (X : exists x, address_hash h a = Ok x) by (apply hash_defined; exact Ha) end.
  destruct X as [x ->]. cbn [bind]. eexists. reflexivity.
Qed.
Lemma entry_equal : forall seed base i a b, address_equal a b = true -> hash_entry seed base i a = hash_entry seed base i b.
Proof. intros seed base i a b H. unfold hash_entry. rewrite (equal_hash a b _ H). reflexivity. Qed.

(** Every record that has not expired is in a current place of its address *)
Definition uinv (u : unknown) (now : Z) : Prop :=
  forall k j, live u now (k, j) -> ip_address (e_addr (u_tab u k j)) /\
    exists s, s <= now / 1000 /\ hash_entry (u_seed u) s 0 (e_addr (u_tab u k j)) = Ok (k, j) /\ e_timeout (u_tab u k j) <= 1000 * s + 15999.

Lemma uinv_place : forall u now k j, uinv u now -> live u now (k, j) ->
  exists i, (i < 16)%nat /\ hash_entry (u_seed u) (now / 1000) i (e_addr (u_tab u k j)) = Ok (k, j).
Proof.
  intros u now k j H Hl. destruct (H k j Hl) as (_ & s & H1 & H2 & H3). unfold live in Hl. cbn [fst snd] in Hl. exists (Z.to_nat (now / 1000 - s)).
  assert (X : now / 1000 <= s + 15) by (pose proof (Z.mul_div_le now 1000); lia). split; [lia|]. rewrite entry_slice. rewrite Z2Nat.id by lia.
  replace (now / 1000 - (now / 1000 - s)) with s by lia. exact H2.
Qed.

Lemma uinv_later : forall u now now', uinv u now -> now <= now' -> uinv u now'.
Proof.
  intros u now now' H Ht k j Hl. destruct (H k j) as (Ha & s & H1 & H2 & H3); [unfold live in *; lia|]. split; [exact Ha|]. exists s.
  split; [|split; assumption]. assert (now / 1000 <= now' / 1000) by (apply Z.div_le_mono; lia). lia.
Qed.

Definition occ (u : unknown) (now : Z) (a : saddr) (i : nat) : Prop := exists kj, hash_entry (u_seed u) (now / 1000) i a = Ok kj /\ live u now kj.
(** the record in the [i]'th place is live and for this address *)
Definition mine (u : unknown) (now : Z) (a : saddr) (i : nat) : Prop :=
  exists kj, hash_entry (u_seed u) (now / 1000) i a = Ok kj /\ live u now kj /\ address_equal a (e_addr (u_tab u (fst kj) (snd kj))) = true.

Lemma loop_spec : forall now a u n i first, ip_address a ->
  (exists f m, backoff_loop n i now (now / 1000) a u first = Ok (true, f) /\ (i <= m < i + n)%nat /\ mine u now a m) \/
  (exists f, backoff_loop n i now (now / 1000) a u first = Ok (false, f) /\ (forall m, (i <= m < i + n)%nat -> ~ mine u now a m) /\
    match first with
    | Some _ => f = first
    | None => match f with
              | Some m => (i <= m < i + n)%nat /\ ~ occ u now a m /\ forall m', (i <= m' < m)%nat -> occ u now a m'
              | None => forall m, (i <= m < i + n)%nat -> occ u now a m
              end
    end).
Proof.
  intros now a u n. induction n as [|n IH]; intros i first Ha; cbn [backoff_loop].
  - right. exists first. split; [reflexivity|]. split; [intros m; lia|]. destruct first; [reflexivity | intros m; lia].
  - destruct (entry_defined (u_seed u) (now / 1000) i a Ha) as [kj Ekj]. rewrite Ekj. cbn [bind]. unfold timed_out.
    destruct (Z.leb_spec (e_timeout (u_tab u (fst kj) (snd kj))) now) as [Hto|Hto].
    + assert (Hno : ~ occ u now a i) by (intros (kj' & E' & L'); rewrite Ekj in E'; injection E' as <-; unfold live in L'; lia).
      assert (Hnm : ~ mine u now a i) by (intros (kj' & E' & L' & _); apply Hno; exists kj'; split; assumption).
      destruct (IH (S i) (match first with Some _ => first | None => Some i end) Ha) as [(f & m & E & R & M) | (f & E & R & F)].
      * left. exists f, m. split; [exact E|]. split; [lia | exact M].
      * right. exists f. split; [exact E|]. split; [intros m Hm; destruct (Nat.eq_dec m i) as [->|]; [exact Hnm | apply R; lia]|].
        destruct first as [x|]; [exact F|]. rewrite F. split; [lia|]. split; [exact Hno | intros m'; lia].
    + assert (Ho : occ u now a i) by (exists kj; split; [exact Ekj | exact Hto]).
      destruct (address_equal a (e_addr (u_tab u (fst kj) (snd kj)))) eqn:Eq; cbn [negb].
      * left. exists first, i. split; [reflexivity|]. split; [lia|]. exists kj. split; [exact Ekj|]. split; [exact Hto | exact Eq].
      * assert (Hnm : ~ mine u now a i) by (intros (kj' & E' & _ & Q'); rewrite Ekj in E'; injection E' as <-; congruence).
        destruct (IH (S i) first Ha) as [(f & m & E & R & M) | (f & E & R & F)].
        -- left. exists f, m. split; [exact E|]. split; [lia | exact M].
        -- right. exists f. split; [exact E|]. split; [intros m Hm; destruct (Nat.eq_dec m i) as [->|]; [exact Hnm | apply R; lia]|].
           destruct first as [x|]; [exact F|]. destruct f as [m|].
           ++ destruct F as (F1 & F2 & F3). split; [lia|]. split; [exact F2|]. intros m' Hm'. destruct (Nat.eq_dec m' i) as [->|]; [exact Ho | apply F3; lia].
           ++ intros m Hm. destruct (Nat.eq_dec m i) as [->|]; [exact Ho | apply F; lia].
Qed.

(** One packet: either there is a record, and nothing changes; or there is none, and one is
    made in the first free place, or in an occupied one if there is no free one *)
Lemma backoff_cases : forall now r a u, ip_address a ->
  (backoff_unknown now r a u = Ok (true, u) /\ exists m, (m < 16)%nat /\ mine u now a m) \/
  (exists i k j, backoff_unknown now r a u = Ok (false, put_entry k j (mk_entry a (now + 15000 - Z.of_nat i * 1000)) u) /\
     (forall m, (m < 16)%nat -> ~ mine u now a m) /\ (i < 16)%nat /\ hash_entry (u_seed u) (now / 1000) i a = Ok (k, j) /\
     ((~ occ u now a i /\ forall m, (m < i)%nat -> occ u now a m) \/ (forall m, (m < 16)%nat -> occ u now a m))).
Proof.
  intros now r a u Ha. unfold backoff_unknown. rewrite interval_eq. change MIN_HANDSHAKE_INTERVAL with 15000.
  destruct (loop_spec now a u 16 0 None Ha) as [(f & m & E & R & M) | (f & E & R & F)]; rewrite E; cbn [bind].
  - left. split; [reflexivity|]. exists m. split; [lia | exact M].
  - right. set (i := match f with Some i => i | None => N.to_nat (r mod Z.to_N UNKNOWN_TABLES) end).
    assert (Hi : (i < 16)%nat).
    { unfold i. destruct f as [m|]; [destruct F; lia|]. pose proof (N.mod_lt r 16) as X. change (Z.to_N UNKNOWN_TABLES) with 16%N. lia. }
    destruct (entry_defined (u_seed u) (now / 1000) i a Ha) as [[k j] Ekj]. rewrite Ekj. cbn [bind fst snd]. exists i, k, j. split; [reflexivity|].
    split; [intros m Hm; apply R; lia|]. split; [exact Hi|]. split; [exact Ekj|]. destruct f as [m|].
    + left. destruct F as (F1 & F2 & F3). split; [exact F2|]. intros m' Hm'. apply F3. unfold i in Hm'. lia.
    + right. intros m Hm. apply F. lia.
Qed.

Lemma put_same : forall k j e u, u_tab (put_entry k j e u) k j = e.
Proof. intros. cbn [put_entry u_tab]. rewrite !N.eqb_refl. reflexivity. Qed.
Lemma put_other : forall k j e u k' j', (k', j') <> (k, j) -> u_tab (put_entry k j e u) k' j' = u_tab u k' j'.
Proof.
  intros k j e u k' j' H. cbn [put_entry u_tab]. destruct (N.eqb_spec k' k) as [->|]; [|reflexivity]. destruct (N.eqb_spec j' j) as [->|]; [contradiction | reflexivity].
Qed.

Lemma put_inv : forall now a u i k j, ip_address a -> uinv u now -> (i < 16)%nat -> hash_entry (u_seed u) (now / 1000) i a = Ok (k, j) ->
  uinv (put_entry k j (mk_entry a (now + 15000 - Z.of_nat i * 1000)) u) now.
Proof.
  intros now a u i k j Ha H Hi Hp k' j' Hl. assert (D : (k', j') = (k, j) \/ (k', j') <> (k, j)).
  { destruct (N.eq_dec k' k) as [->|]; [|right; congruence]. destruct (N.eq_dec j' j) as [->|]; [left; reflexivity | right; congruence]. }
  change (u_seed (put_entry k j (mk_entry a (now + 15000 - Z.of_nat i * 1000)) u)) with (u_seed u). destruct D as [D|D].
  - injection D as -> ->. rewrite put_same. cbn [e_addr e_timeout]. split; [exact Ha|]. exists (now / 1000 - Z.of_nat i). split; [lia|].
    split; [rewrite <- entry_slice; exact Hp|]. pose proof (Z.mod_pos_bound now 1000). pose proof (Z.div_mod now 1000). lia.
  - unfold live in Hl. cbn [fst snd] in Hl. rewrite put_other in * by exact D. apply H. exact Hl.
Qed.

(** A record is found exactly if it is kept anywhere *)
Lemma found_iff : forall u now a, uinv u now -> ip_address a ->
  (exists m, (m < 16)%nat /\ mine u now a m) <-> exists k j, live u now (k, j) /\ address_equal a (e_addr (u_tab u k j)) = true.
Proof.
  intros u now a H Ha. split.
  - intros (m & _ & [k j] & _ & L & Q). exists k, j. split; assumption.
  - intros (k & j & L & Q). destruct (uinv_place u now k j H L) as (i & Hi & Hp). exists i. split; [exact Hi|]. exists (k, j).
    split; [rewrite (entry_equal _ _ _ _ _ Q); exact Hp|]. split; assumption.
Qed.

Lemma step_inv : forall v u, ip_address (v_addr v) -> uinv u (v_now v) ->
  exists b u', backoff_unknown (v_now v) (v_rand v) (v_addr v) u = Ok (b, u') /\ uinv u' (v_now v).
Proof.
  intros v u Ha H. destruct (backoff_cases (v_now v) (v_rand v) (v_addr v) u Ha) as [(E & _) | (i & k & j & E & _ & Hi & Hp & _)].
  - exists true, u. split; assumption.
  - eexists _, _. split; [exact E|]. apply put_inv; assumption.
Qed.

Lemma run_inv : forall l t u, ordered t l -> uinv u t -> exists bs u', backoffs l u = Ok (bs, u') /\ uinv u' (last_time t l) /\ length bs = length l.
Proof.
  intros l. induction l as [|v l IH]; intros t u Ho H; cbn [backoffs last_time].
  - exists [], u. split; [reflexivity|]. split; [exact H | reflexivity].
  - destruct Ho as (Ht & Ha & Ho). destruct (step_inv v u Ha (uinv_later _ _ _ H Ht)) as (b & u1 & E1 & H1). rewrite E1. cbn [bind snd fst].
    destruct (IH (v_now v) u1 Ho H1) as (bs & u2 & E2 & H2 & L2). rewrite E2. cbn [bind fst snd]. eexists _, _. split; [reflexivity|]. split; [exact H2 | cbn [length]; rewrite L2; reflexivity].
Qed.
Lemma init_inv : forall t seed, uinv (unknown_init t seed) t.
Proof. intros t seed k j Hl. unfold live in Hl. cbn in Hl. lia. Qed.

Lemma backoffs_app : forall l1 l2 u, backoffs (l1 ++ l2) u = do s1 <- backoffs l1 u; do s2 <- backoffs l2 (snd s1); Ok (fst s1 ++ fst s2, snd s2).
Proof.
  intros l1. induction l1 as [|v l1 IH]; intros l2 u; cbn [app backoffs].
  - cbn [bind fst snd app]. destruct (backoffs l2 u) as [[? ?]| | |]; reflexivity.
  - destruct (backoff_unknown (v_now v) (v_rand v) (v_addr v) u) as [[b u1]| | |]; cbn [bind]; [|reflexivity..]. cbn [fst snd]. rewrite IH.
    destruct (backoffs l1 u1) as [[b1 u2]| | |]; cbn [bind]; [|reflexivity..]. cbn [fst snd]. destruct (backoffs l2 u2) as [[b2 u3]| | |]; reflexivity.
Qed.
Lemma ordered_app : forall l1 l2 t, ordered t (l1 ++ l2) <-> ordered t l1 /\ ordered (last_time t l1) l2.
Proof. intros l1. induction l1 as [|v l1 IH]; intros l2 t; cbn [app ordered last_time]; [tauto|]. rewrite IH. tauto. Qed.
Lemma last_le : forall l t, ordered t l -> t <= last_time t l.
Proof. intros l. induction l as [|v l IH]; intros t Ho; cbn [last_time]; [lia|]. destruct Ho as (H1 & _ & H2). specialize (IH _ H2). lia. Qed.

(** A record stays until it expires or somebody is crowded *)
Lemma kept : forall l t u k j a, ordered t l -> uinv u t -> last_time t l < e_timeout (u_tab u k j) -> e_addr (u_tab u k j) = a ->
  (forall m1 v m2 bs u', l = m1 ++ v :: m2 -> backoffs m1 u = Ok (bs, u') -> ~ crowded u' v) ->
  exists bs u', backoffs l u = Ok (bs, u') /\ u_tab u' k j = u_tab u k j.
Proof.
  intros l. induction l as [|v l IH]; intros t u k j a Ho H Hl Ha Hc; cbn [backoffs].
  - exists [], u. split; reflexivity.
  - destruct Ho as (Ht & Hip & Ho). cbn [last_time] in Hl. pose proof (last_le l _ Ho) as Hll. pose proof (uinv_later _ _ _ H Ht) as Hv.
    assert (Hlive : live u (v_now v) (k, j)) by (unfold live; cbn [fst snd]; lia).
    destruct (step_inv v u Hip Hv) as (b & u1 & E1 & H1). rewrite E1. cbn [bind fst snd].
    assert (Same : u_tab u1 k j = u_tab u k j).
    { destruct (backoff_cases (v_now v) (v_rand v) (v_addr v) u Hip) as [(E & _) | (i & k' & j' & E & _ & Hi & Hp & [(Hf & _) | Hall])].
      - rewrite E in E1. injection E1 as <- <-. reflexivity.
      - rewrite E in E1. injection E1 as <- <-. apply put_other. intros D. injection D as -> ->. apply Hf. exists (k', j'). split; assumption.
      - exfalso. apply (Hc [] v l [] u eq_refl eq_refl). exact Hall. }
    destruct (IH (v_now v) u1 k j a Ho H1) as (bs & u2 & E2 & S2).
    + rewrite Same. exact Hl.
    + rewrite Same. exact Ha.
    + intros m1 w m2 bs u' El Er. apply (Hc (v :: m1) w m2 (b :: bs) u'); [rewrite El; reflexivity|]. cbn [backoffs]. rewrite E1. cbn [bind fst snd]. rewrite Er. reflexivity.
    + rewrite E2. cbn [bind fst snd]. eexists _, _. split; [reflexivity|]. rewrite S2. exact Same.
Qed.

Lemma no_second : forall t seed pre x mid y bs1 u1 bs i,
  ordered t (pre ++ x :: mid ++ [y]) -> backoffs pre (unknown_init t seed) = Ok (bs1, u1) ->
  backoffs (pre ++ [x]) (unknown_init t seed) = Ok (bs1 ++ [false], bs) ->
  first_free u1 x i -> v_now y < v_now x + 15000 - 1000 * Z.of_nat i -> address_equal (v_addr y) (v_addr x) = true ->
  (forall m1 v m2 bs' u', mid = m1 ++ v :: m2 -> backoffs (pre ++ x :: m1) (unknown_init t seed) = Ok (bs', u') -> ~ crowded u' v) ->
  exists bs2 u2, backoffs (pre ++ x :: mid ++ [y]) (unknown_init t seed) = Ok (bs1 ++ false :: bs2 ++ [true], u2).
Proof.
  intros t seed pre x mid y bs1 u1 ux i Ho E1 Ex (Hi & Hfree & Hocc) Hy Hq Hc.
  apply ordered_app in Ho. destruct Ho as [Ho1 Ho2]. cbn [ordered] in Ho2. destruct Ho2 as (Ht & Hip & Ho2). apply ordered_app in Ho2. destruct Ho2 as [Ho2 Ho3]. cbn [ordered] in Ho3.
  destruct Ho3 as (Hty & Hiy & _).
  destruct (run_inv pre t _ Ho1 (init_inv t seed)) as (bs0 & u0 & E0 & H0 & _). rewrite E1 in E0. injection E0 as <- <-.
  pose proof (uinv_later _ _ _ H0 Ht) as Hx.
  rewrite backoffs_app, E1 in Ex. cbn [bind snd backoffs fst] in Ex.
  destruct (backoff_cases (v_now x) (v_rand x) (v_addr x) u1 Hip) as [(E & _) | (i' & k & j & E & Hnm & Hi' & Hp & Hwhere)].
  { rewrite E in Ex. cbn [bind fst snd] in Ex. injection Ex as Ex _. apply app_inv_head in Ex. discriminate. }
  assert (Eu : exists b', backoff_unknown (v_now x) (v_rand x) (v_addr x) u1 = Ok (b', ux)) by (rewrite E in Ex |- *; cbn [bind fst snd] in Ex; injection Ex as <-; eexists; reflexivity).
  destruct Eu as [b' Eu]. rewrite E in Eu. injection Eu as <- Eux.
  assert (i' = i) as ->.
  { destruct Hwhere as [(Hf & Hoc) | Hall]; [|exfalso; exact (Hfree (Hall i Hi))].
    destruct (Nat.lt_trichotomy i' i) as [X|[X|X]]; [exfalso; exact (Hf (Hocc i' X)) | exact X | exfalso; exact (Hfree (Hoc i X))]. }
  assert (Hux : uinv ux (v_now x)) by (rewrite <- Eux; apply put_inv; assumption).
  assert (Eent : u_tab ux k j = mk_entry (v_addr x) (v_now x + 15000 - Z.of_nat i * 1000)) by (rewrite <- Eux; apply put_same).
  destruct (kept mid (v_now x) ux k j (v_addr x) Ho2 Hux) as (bs2 & u2 & E2 & S2).
  - rewrite Eent. cbn [e_timeout]. lia.
  - rewrite Eent. reflexivity.
  - intros m1 v m2 bs' u' El Er. apply (Hc m1 v m2 (bs1 ++ false :: bs') u' El). rewrite backoffs_app, E1. cbn [bind fst snd backoffs]. rewrite E. cbn [bind fst snd]. rewrite Eux, Er. reflexivity.
  - destruct (run_inv mid _ ux Ho2 Hux) as (bs2' & u2' & E2' & H2 & _). rewrite E2 in E2'. injection E2' as <- <-.
    exists bs2, u2. rewrite backoffs_app, E1. cbn [bind fst snd backoffs]. rewrite E. cbn [bind fst snd]. rewrite Eux, backoffs_app, E2. cbn [bind fst snd backoffs].
    pose proof (uinv_later _ _ _ H2 Hty) as Hy2.
    destruct (backoff_cases (v_now y) (v_rand y) (v_addr y) u2 Hiy) as [(Ey & _) | (i2 & k2 & j2 & _ & Hn2 & _)].
    + rewrite Ey. cbn [bind fst snd]. reflexivity.
    + exfalso. assert (Hf : exists m, (m < 16)%nat /\ mine u2 (v_now y) (v_addr y) m).
      { apply found_iff; [exact Hy2 | exact Hiy|]. exists k, j. rewrite S2, Eent. cbn [e_addr]. split; [|exact Hq]. unfold live. cbn [fst snd]. rewrite S2, Eent. cbn [e_timeout]. lia. }
      destruct Hf as (m & Hm & Hmine). exact (Hn2 m Hm Hmine).
Qed.

(** Statements for reachable states *)
Lemma reach_backoff : forall t seed l bs u now r a, ordered t l -> backoffs l (unknown_init t seed) = Ok (bs, u) -> last_time t l <= now -> ip_address a ->
  exists b u', backoff_unknown now r a u = Ok (b, u') /\ (b = true <-> exists k j, live u now (k, j) /\ address_equal a (e_addr (u_tab u k j)) = true).
Proof.
  intros t seed l bs u now r a Ho E Ht Ha. destruct (run_inv l t _ Ho (init_inv t seed)) as (bs' & u' & E' & H & _). rewrite E in E'. injection E' as <- <-.
  pose proof (uinv_later _ _ _ H Ht) as Hv. destruct (backoff_cases now r a u Ha) as [(E1 & Hm) | (i & k & j & E1 & Hn & _)].
  - exists true, u. split; [exact E1|]. split; [intros _; apply found_iff; assumption | reflexivity].
  - eexists false, _. split; [exact E1|]. split; [discriminate|]. intros X. apply found_iff in X; [|assumption..]. destruct X as (m & Hm & X). exfalso. exact (Hn m Hm X).
Qed.
Lemma reach_cycle : forall t seed l bs u now k j, ordered t l -> backoffs l (unknown_init t seed) = Ok (bs, u) -> last_time t l <= now ->
  live u now (k, j) -> exists i, (i < 16)%nat /\ hash_entry seed (now / 1000) i (e_addr (u_tab u k j)) = Ok (k, j).
Proof.
  intros t seed l bs u now k j Ho E Ht Hl. destruct (run_inv l t _ Ho (init_inv t seed)) as (bs' & u' & E' & H & _). rewrite E in E'. injection E' as <- <-.
  pose proof (uinv_later _ _ _ H Ht) as Hv. assert (Es : u_seed u = seed).
  { clear - E. revert E. change seed with (u_seed (unknown_init t seed)) at 2. generalize (unknown_init t seed). revert bs u. induction l as [|v l IH]; intros bs u u0 E; cbn [backoffs] in E.
    - injection E as _ <-. reflexivity.
    - destruct (backoff_unknown (v_now v) (v_rand v) (v_addr v) u0) as [[b u1]| | |] eqn:E1; cbn [bind fst snd] in E; try discriminate.
      destruct (backoffs l u1) as [[b2 u2]| | |] eqn:E2; cbn [bind fst snd] in E; try discriminate. injection E as _ <-. rewrite (IH _ _ _ E2).
      unfold backoff_unknown in E1. destruct (backoff_loop 16 0 _ _ _ _ _) as [[f o]| | |]; cbn [bind] in E1; try discriminate. destruct f; [injection E1 as _ <-; reflexivity|].
      match type of E1 with context [hash_entry ?s ?b ?i ?a] => destruct (hash_entry s b i a) as [kj| | |] end; cbn [bind] in E1; try discriminate. injection E1 as _ <-. reflexivity. }
  rewrite <- Es. apply uinv_place; assumption.
Qed.
Lemma reach_defined : forall t seed l, ordered t l -> exists bs u, backoffs l (unknown_init t seed) = Ok (bs, u) /\ length bs = length l.
Proof. intros t seed l Ho. destruct (run_inv l t _ Ho (init_inv t seed)) as (bs & u & E & _ & L). exists bs, u. split; assumption. Qed.
