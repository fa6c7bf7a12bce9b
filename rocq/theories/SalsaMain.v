From Verif Require Import Base SalsaModel SalsaSpec SalsaSym SalsaSound SalsaSeg SalsaRun SalsaLoops SalsaProofs SalsaCall.
Local Open Scope N_scope.

Lemma run_done size k p pc s s' j : run size k p pc s = Done s' -> run size (k + j) p pc s = Done s'.
Proof.
  revert pc s. induction k as [|k IH]; intros pc s H; cbn [run] in H; [discriminate H|]. cbn [run Nat.add]. destruct (step size p pc s); auto.
Qed.
Lemma run_fun size p pc s a b s1 s2 : run size a p pc s = Done s1 -> run size b p pc s = Done s2 -> s1 = s2.
Proof.
  intros H1 H2. apply run_done with (j := b) in H1. apply run_done with (j := a) in H2. rewrite Nat.add_comm in H2. rewrite H1 in H2. now injection H2.
Qed.

Lemma left_key k0 k sp ko no : KeyW k0 sp ko no k -> forall i, i < 32 -> byte_at k Stack (sp + place i) = byte_at k0 Key (ko + i).
Proof.
  intros H i Hi. unfold place. set (j := N.to_nat (i / 4)). assert (Hj : (j < 8)%nat) by (unfold j; lia). assert (Ht : i mod 4 < 4) by lia.
  replace (ko + i) with (ko + 4 * N.of_nat j + i mod 4) by (unfold j; lia). rewrite N.add_assoc, !byte_of_word by exact Ht. do 2 f_equal. clearbody j. clear Hi Ht i.
  transitivity (le_word (kb k0 ko) j); [|unfold word_at, le_word, kb, byte_at; cbv zeta; now rewrite !N.add_assoc].
  do 8 (destruct j as [|j]; [cbn [nth]; first [exact (H 1%nat ltac:(lia) ltac:(lia) ltac:(lia))|exact (H 2%nat ltac:(lia) ltac:(lia) ltac:(lia))|exact (H 3%nat ltac:(lia) ltac:(lia) ltac:(lia))
    |exact (H 4%nat ltac:(lia) ltac:(lia) ltac:(lia))|exact (H 11%nat ltac:(lia) ltac:(lia) ltac:(lia))|exact (H 12%nat ltac:(lia) ltac:(lia) ltac:(lia))
    |exact (H 13%nat ltac:(lia) ltac:(lia) ltac:(lia))|exact (H 14%nat ltac:(lia) ltac:(lia) ltac:(lia))]|]). lia.
Qed.

Lemma salsa_all size q top ko no io co len s : (0 < q)%nat -> 4 * N.of_nat q < 2 ^ 64 -> len <= 2 ^ 38 -> called size top ko no io co len s ->
  exists s', ends size (4 * N.of_nat q) s s' /\ returned (2 * q) top ko no io co len s s' /\
    (0 < len -> forall i, i < 32 -> bytes_from s' Stack (frame_of top) (place i) = bytes_from s Key ko i).
Proof.
  intros Hq Hq64 Hlen [Hsp Hroom Htop Hdi Hout Hsi Hin Hdx Hcx Hnon H8 Hkey Hsv].
  destruct (Hsv R12 ltac:(cbn; tauto)) as (v1 & E12 & L12). destruct (Hsv R13 ltac:(cbn; tauto)) as (v2 & E13 & L13). destruct (Hsv R14 ltac:(cbn; tauto)) as (v3 & E14 & L14).
  destruct (Hsv R15 ltac:(cbn; tauto)) as (v4 & E15 & L15). destruct (Hsv RBX ltac:(cbn; tauto)) as (v5 & Ebx & Lbx). destruct (Hsv RBP ltac:(cbn; tauto)) as (v6 & Ebp & Lbp).
  set (d := top mod 32 + 480). assert (Hd : d < 512) by (unfold d; lia). set (sp := top - d). set (saved := [d; v1; v2; v3; v4; v5; v6]).
  assert (Hal : sp mod 16 = 0) by (unfold sp, d; lia). assert (Hst : sp + 480 <= size Stack) by (unfold sp, d; lia).
  set (sa := set_g R11 (VP Stack top) s). set (sb := unflag (set_g R11 (VI (top mod 32)) sa)). set (sc := unflag (set_g R11 (VI d) sb)).
  set (s1 := unflag (set_g RSP (VP Stack sp) sc)).
  assert (X1 : exec size (MOV RSP R11) s = Some sa) by (cbn [exec]; now rewrite Hsp).
  assert (X2 : exec size (ANDI 31 R11) sa = Some sb) by reflexivity.
  assert (X3 : exec size (ADDI 480 R11) sb = Some sc).
  { cbn [exec]. change (g sb R11) with (VI (top mod 32)). cbv iota beta.
    replace ((top mod 32 + 480) mod W64) with d; [reflexivity|]. unfold d, W64. symmetry. apply N.mod_small. change (2 ^ 64) with 18446744073709551616. lia. }
  assert (X4 : exec size (SUB R11 RSP) sc = Some s1).
  { cbn [exec]. unfold int. change (g sc R11) with (VI d). change (g sc RSP) with (g s RSP). rewrite Hsp. cbn [obind]. now replace (d <=? top) with true by (unfold d; lia). }
  assert (E1 : seq size c_entry s = Some s1).
  { unfold c_entry. cbn [seq]. rewrite X1. cbn [obind]. rewrite X2. cbn [obind]. rewrite X3. cbn [obind]. now rewrite X4. }
  assert (Hs : forall i, nth i saved 0 < W64).
  { intros i. unfold saved, W64. do 7 (destruct i as [|i]; [cbn [nth]; try assumption; lia|]). destruct i; reflexivity. }
  destruct (body size q (m s) sp ko no io co len saved Hq Hq64 Hal Hst Hin Hout Hkey Hnon Hlen s1 Hs eq_refl eq_refl E12 E13 E14 E15 Ebx Ebp Hdi Hsi Hdx Hcx H8 eq_refl)
    as (s2 & R2 & Sp2 & Sv2 & P2 & KW2).
  destruct (fin size q sp ko no io co len saved Hq Hq64 Hal Hst Hin Hout Hkey Hnon Hlen s2 Sp2 Sv2) as (s3 & R3 & Lo & Hr & G12 & G13 & G14 & G15 & Gbx & Gbp & Gax & Sm3).
  pose proof (pos_local q (m s) sp ko no io co _ _ _ Lo P2) as [PO PR].
  exists s3. split; [|split].
  - assert (R : reach size (program (4 * N.of_nat q)) (program (4 * N.of_nat q)) s pc_ret s3).
    { eapply reach_trans; [|eapply reach_trans; [exact R2|exact R3]]. unfold pc_save. exact (reach_seq size _ c_entry _ s s1 E1). }
    destruct R as [n Hn]. exists (n + 1)%nat. rewrite Hn. reflexivity.
  - split.
    + exact PO.
    + intros o a Ho Hs'. apply PR; [intros E; specialize (Hs' E); unfold sp, d in *; lia|exact Ho].
    + intros r Hr'. cbn in Hr'. repeat destruct Hr' as [Hr'|Hr']; try (subst r; cbn [nth saved] in *; congruence); [|destruct Hr'].
      subst r. rewrite Hr, Hsp. f_equal. unfold sp, saved. cbn [nth]. unfold d in *. lia.
    + exact Gax.
  - intros Hl i Hi. apply (left_key (m s) (m s3) sp ko no); [|exact Hi].
    apply (key_same (m s) sp ko no (m s2)); [intros j J1 J2; apply Sm3; lia..|exact (KW2 Hl)].
Qed.
Lemma salsa size q top ko no io co len s : (0 < q)%nat -> 4 * N.of_nat q < 2 ^ 64 -> len <= 2 ^ 38 -> called size top ko no io co len s ->
  exists s', ends size (4 * N.of_nat q) s s' /\ returned (2 * q) top ko no io co len s s'.
Proof. intros A B C D. destruct (salsa_all size q top ko no io co len s A B C D) as (s' & E & R & _). exists s'. now split. Qed.

Lemma salsa_only size q top ko no io co len s s' : (0 < q)%nat -> 4 * N.of_nat q < 2 ^ 64 -> len <= 2 ^ 38 -> called size top ko no io co len s ->
  ends size (4 * N.of_nat q) s s' -> returned (2 * q) top ko no io co len s s'.
Proof.
  intros A B C D [n Hn]. destruct (salsa size q top ko no io co len s A B C D) as (s2 & [k Hk] & R). now rewrite (run_fun _ _ _ _ _ _ _ _ Hn Hk).
Qed.
Lemma salsa_left rounds : rounds = 20 \/ rounds = 12 -> forall size top ko no io co len s s', 0 < len -> len <= 2 ^ 38 -> called size top ko no io co len s ->
  ends size rounds s s' -> forall i, i < 32 -> bytes_from s' Stack (frame_of top) (place i) = bytes_from s Key ko i.
Proof.
  assert (G : forall q, (0 < q)%nat -> 4 * N.of_nat q < 2 ^ 64 -> forall size top ko no io co len s s', 0 < len -> len <= 2 ^ 38 -> called size top ko no io co len s ->
    ends size (4 * N.of_nat q) s s' -> forall i, i < 32 -> bytes_from s' Stack (frame_of top) (place i) = bytes_from s Key ko i).
  { intros q A B size top ko no io co len s s' H0 C D [n Hn]. destruct (salsa_all size q top ko no io co len s A B C D) as (s2 & [k Hk] & _ & R).
    rewrite (run_fun _ _ _ _ _ _ _ _ Hn Hk). exact (R H0). }
  intros [-> | ->]; [exact (G 5%nat ltac:(lia) eq_refl)|exact (G 3%nat ltac:(lia) eq_refl)].
Qed.

(** Twice *)
Lemma stream_ext q kb kb' nb nb' j : (forall i, i < 32 -> kb i = kb' i) -> (forall i, i < 8 -> nb i = nb' i) -> stream q kb nb j = stream q kb' nb' j.
Proof.
  intros Hk Hn. unfold stream, word, start.
  assert (K : forall i, (i < 8)%nat -> le_word kb i = le_word kb' i) by (intros i Hi; unfold le_word; cbv zeta; rewrite !Hk by lia; reflexivity).
  assert (N' : forall i, (i < 2)%nat -> le_word nb i = le_word nb' i) by (intros i Hi; unfold le_word; cbv zeta; rewrite !Hn by lia; reflexivity).
  now rewrite !K, !N' by lia.
Qed.
Lemma twice q top ko no io co top2 ko2 no2 io2 co2 len s s' t t' :
  returned q top ko no io co len s s' -> returned q top2 ko2 no2 io2 co2 len t t' ->
  (forall i, i < 32 -> bytes_from t Key ko2 i = bytes_from s Key ko i) -> (forall i, i < 8 -> bytes_from t Nonce no2 i = bytes_from s Nonce no i) ->
  (forall j, j < len -> bytes_from t In io2 j = bytes_from s' Out co j) ->
  forall j, j < len -> bytes_from t' Out co2 j = bytes_from s In io j.
Proof.
  intros R1 R2 Hk Hn Hi j Hj. rewrite (r_result _ _ _ _ _ _ _ _ _ R2 j Hj), (Hi j Hj), (r_result _ _ _ _ _ _ _ _ _ R1 j Hj).
  rewrite (stream_ext q _ _ _ _ j Hk Hn). now rewrite N.lxor_assoc, N.lxor_nilpotent, N.lxor_0_r.
Qed.

Lemma salsa20 size top ko no io co len s : len <= 2 ^ 38 -> called size top ko no io co len s ->
  (exists s', ends size 20 s s') /\ forall s', ends size 20 s s' -> returned 10 top ko no io co len s s'.
Proof.
  intros Hl Hc. split; [|intros s' He; exact (salsa_only size 5 top ko no io co len s s' ltac:(lia) eq_refl Hl Hc He)].
  destruct (salsa size 5 top ko no io co len s ltac:(lia) eq_refl Hl Hc) as (s' & He & _). exists s'. exact He.
Qed.
Lemma salsa2012 size top ko no io co len s : len <= 2 ^ 38 -> called size top ko no io co len s ->
  (exists s', ends size 12 s s') /\ forall s', ends size 12 s s' -> returned 6 top ko no io co len s s'.
Proof.
  intros Hl Hc. split; [|intros s' He; exact (salsa_only size 3 top ko no io co len s s' ltac:(lia) eq_refl Hl Hc He)].
  destruct (salsa size 3 top ko no io co len s ltac:(lia) eq_refl Hl Hc) as (s' & He & _). exists s'. exact He.
Qed.
Lemma salsa_inverse : forall rounds, rounds = 20 \/ rounds = 12 ->
  forall size top ko no io co len s s', len <= 2 ^ 38 -> called size top ko no io co len s -> ends size rounds s s' ->
  forall size2 top2 ko2 no2 io2 co2 t t', called size2 top2 ko2 no2 io2 co2 len t -> ends size2 rounds t t' ->
  (forall i, i < 32 -> bytes_from t Key ko2 i = bytes_from s Key ko i) -> (forall i, i < 8 -> bytes_from t Nonce no2 i = bytes_from s Nonce no i) ->
  (forall j, j < len -> bytes_from t In io2 j = bytes_from s' Out co j) ->
  forall j, j < len -> bytes_from t' Out co2 j = bytes_from s In io j.
Proof.
  intros rounds [-> | ->] size top ko no io co len s s' Hl Hc He size2 top2 ko2 no2 io2 co2 t t' Hc2 He2 Hk Hn Hi j Hj.
  - exact (twice 10 top ko no io co top2 ko2 no2 io2 co2 len s s' t t' (proj2 (salsa20 size top ko no io co len s Hl Hc) s' He)
      (proj2 (salsa20 size2 top2 ko2 no2 io2 co2 len t Hl Hc2) t' He2) Hk Hn Hi j Hj).
  - exact (twice 6 top ko no io co top2 ko2 no2 io2 co2 len s s' t t' (proj2 (salsa2012 size top ko no io co len s Hl Hc) s' He)
      (proj2 (salsa2012 size2 top2 ko2 no2 io2 co2 len t Hl Hc2) t' He2) Hk Hn Hi j Hj).
Qed.

(** A call of 300 bytes: a round of four blocks, then a block in part; the stack pointer is not aligned *)
Example call_ex : exists s, called (fun _ => 1000) 1000 3 5 7 11 300 s /\ (forall i, i < 32 -> bytes_from s Key 3 i = i) /\ 300 <= 2 ^ 38.
Proof.
  exists (St (fun r => match r with RSP => VP Stack 1000 | RDI => VP Out 11 | RSI => VP In 7 | RDX => VI 300 | RCX => VP Nonce 5 | R8 => VP Key 3 | _ => VI 77 end)
    (fun _ => Quad 0 0 0 0) (fun o a => match o with Key => a - 3 | _ => a end) None None).
  split; [|split].
  - constructor; cbn [g]; try (exact eq_refl); try lia; try (change (1000 mod 32) with 8; lia).
    intros r Hr. exists 77. split; [|reflexivity]. cbn [List.In] in Hr. destruct Hr as [<- | [<- | [<- | [<- | [<- | [<- | []]]]]]]; exact eq_refl.
  - intros i Hi. unfold bytes_from, byte_at. cbn [m]. rewrite N.mod_small; lia.
  - apply N.leb_le. reflexivity.
Qed.
(** The first bytes of the key stream for the key 80 00 .. 00 and the nonce 0 (ECRYPT test vectors, set 1, vector 0): the specification is that of Salsa20 *)
Example stream_ex : map (stream 10 (fun i => if i =? 0 then 128 else 0) (fun _ => 0)) [0; 1; 2; 3; 60; 61; 62; 63] = [227; 190; 143; 221; 126; 241; 161; 23].
Proof. vm_compute. reflexivity. Qed.

(** What blocks start from *)
Lemma le_word_inj a b i : (forall j, a j < 256) -> (forall j, b j < 256) -> le_word a i = le_word b i -> forall t, t < 4 -> a (4 * N.of_nat i + t) = b (4 * N.of_nat i + t).
Proof.
  intros Ha Hb E t Ht. unfold le_word in E. cbv zeta in E. set (c := 4 * N.of_nat i) in *. clearbody c.
  pose proof (Ha c). pose proof (Ha (c + 1)). pose proof (Ha (c + 2)). pose proof (Ha (c + 3)). pose proof (Hb c). pose proof (Hb (c + 1)). pose proof (Hb (c + 2)). pose proof (Hb (c + 3)).
  change (2 ^ 8) with 256 in E. change (2 ^ 16) with 65536 in E. change (2 ^ 24) with 16777216 in E.
  assert (D : t = 0 \/ t = 1 \/ t = 2 \/ t = 3) by lia. destruct D as [-> | [-> | [-> | ->]]]; rewrite ?N.add_0_r; lia.
Qed.
Lemma start_inj k k' v v' n n' : (forall j, k j < 256) -> (forall j, k' j < 256) -> (forall j, v j < 256) -> (forall j, v' j < 256) ->
  start (le_word k) (le_word v) n = start (le_word k') (le_word v') n' ->
  n = n' /\ (forall i, i < 32 -> k i = k' i) /\ (forall i, i < 8 -> v i = v' i).
Proof.
  intros Hk Hk' Hv Hv' E. assert (G : forall i, nth i (start (le_word k) (le_word v) n) 0 = nth i (start (le_word k') (le_word v') n') 0) by (intros i; now rewrite E).
  clear E. split; [|split].
  - pose proof (G 8%nat) as A. pose proof (G 9%nat) as B. cbn [nth start] in A, B. rewrite (N.div_mod n (2 ^ 32)), (N.div_mod n' (2 ^ 32)) by discriminate. now rewrite A, B.
  - intros i Hi. set (j := N.to_nat (i / 4)). replace i with (4 * N.of_nat j + i mod 4) by (unfold j; lia). assert (Hj : (j < 8)%nat) by (unfold j; lia). assert (Ht : i mod 4 < 4) by lia.
    apply le_word_inj; auto. clearbody j. clear - G Hj.
    do 8 (destruct j as [|j]; [first [exact (G 1%nat)|exact (G 2%nat)|exact (G 3%nat)|exact (G 4%nat)|exact (G 11%nat)|exact (G 12%nat)|exact (G 13%nat)|exact (G 14%nat)]|]). lia.
  - intros i Hi. set (j := N.to_nat (i / 4)). replace i with (4 * N.of_nat j + i mod 4) by (unfold j; lia). assert (Hj : (j < 2)%nat) by (unfold j; lia). assert (Ht : i mod 4 < 4) by lia.
    apply le_word_inj; auto. clearbody j. clear - G Hj. do 2 (destruct j as [|j]; [first [exact (G 6%nat)|exact (G 7%nat)]|]). lia.
Qed.
