(** * Netlink messages: whatever arrives is read within the buffer *)

From Coq Require Import List NArith ZArith Bool Lia ZifyBool ZifyNat ZifyN.
From Verif Require Import NlModel NlSpec NlProofs NlProofs2 NlProofs3.
Import ListNotations.
Import NlSpec.
Local Open Scope Z_scope.
Ltac Zify.zify_post_hook ::= Z.to_euclidean_division_equations.

(** ** Reading *)

Lemma le_value_spec : forall l, le_value l = fold_right (fun b z => Z.of_N b + 256 * z) 0 l.
Proof. induction l as [| b l IH]; cbn [le_value fold_right]; [reflexivity |]. now rewrite IH. Qed.
Lemma le_value_bound : forall l, bytes l -> 0 <= le_value l < 256 ^ Z.of_nat (length l).
Proof.
  induction l as [| b l IH]; intros H; cbn [le_value length]; [cbn; lia |].
  apply Forall_cons_iff in H. destruct H as [H1 H2]. specialize (IH H2).
  rewrite Nat2Z.inj_succ, Z.pow_succ_r by lia. nia.
Qed.
Lemma bytes_part : forall p k l, bytes l -> bytes (firstn k (skipn p l)).
Proof.
  intros p k l H. unfold bytes in *. rewrite Forall_forall in *. intros x Hx. apply H.
  apply in_firstn in Hx. rewrite <- (firstn_skipn p l). apply in_or_app. right. exact Hx.
Qed.

Lemma read_in : forall b p n, 0 <= p -> 0 <= n -> p + n <= size b ->
  read b p n = Done (firstn (Z.to_nat n) (skipn (Z.to_nat p) b)) /\
  length (firstn (Z.to_nat n) (skipn (Z.to_nat p) b)) = Z.to_nat n.
Proof.
  intros b p n Hp Hn Hs. unfold read.
  replace ((0 <=? p) && (0 <=? n) && (p + n <=? size b)) with true by lia. split; [reflexivity |].
  rewrite firstn_length, skipn_length. unfold size in Hs. lia.
Qed.
Lemma read_num_in : forall le k b p, bytes b -> 0 <= p -> p + Z.of_nat k <= size b ->
  exists z, read_num le (Z.of_nat k) b p = Done z /\ 0 <= z < 256 ^ Z.of_nat k.
Proof.
  intros le k b p Hb Hp Hs. destruct (read_in b p (Z.of_nat k)) as [E El]; [lia | lia | lia |].
  unfold read_num. rewrite E. cbn [bind]. eexists. split; [reflexivity |].
  rewrite Nat2Z.id in *. set (l := firstn k (skipn (Z.to_nat p) b)) in *.
  assert (Hl : bytes (host le l)).
  { assert (Hl : bytes l) by (apply bytes_part; exact Hb). unfold host. destruct le; [exact Hl |].
    unfold bytes in *. now apply Forall_rev. }
  pose proof (le_value_bound (host le l) Hl) as B.
  replace (length (host le l)) with k in B; [exact B |]. unfold host. destruct le; [| rewrite rev_length]; congruence.
Qed.

(** A number in the part that was received *)
Lemma read_word : forall le k l c q, (q + k <= length l)%nat ->
  read_num le (Z.of_nat k) (l ++ c) (Z.of_nat q) = Done (word le k l q).
Proof.
  intros le k l c q H. unfold read_num.
  destruct (read_in (l ++ c) (Z.of_nat q) (Z.of_nat k)) as [E _]; [lia | lia | rewrite size_app; unfold size; lia |].
  rewrite E. cbn [bind]. f_equal. rewrite !Nat2Z.id. unfold word, value. rewrite le_value_spec.
  rewrite skipn_app. replace (q - length l)%nat with 0%nat by lia. cbn [skipn].
  rewrite firstn_app. replace (k - length (skipn q l))%nat with 0%nat by (rewrite skipn_length; lia).
  cbn [firstn]. rewrite app_nil_r. reflexivity.
Qed.

(** ** Callbacks *)

Definition safe {A : Type} (o : out A) : Prop := match o with Done _ => True | _ => False end.

Definition cb_safe {D : Type} (le : bool) (cb : attr_cb D) : Prop :=
  forall b p e d n, bytes b -> 0 <= p -> read_num le 2 b p = Done n -> 4 <= n -> p + n <= size b -> safe (cb b p e d).

Lemma safe_bind : forall (A B : Type) (x : out A) (f : A -> out B), safe x -> (forall a, x = Done a -> safe (f a)) -> safe (bind x f).
Proof. intros A B x f Hx Hf. destruct x; cbn in *; try contradiction. now apply Hf. Qed.

Lemma getfamily_safe : forall le, cb_safe le (getfamily_cb le).
Proof.
  intros le b p e d n Hb Hp En Hn Hs. unfold getfamily_cb, attr_get_type.
  destruct (read_num_in le 2 b (p + 2) Hb) as [t [Et _]]; [lia | lia |]. change (Z.of_nat 2) with 2 in Et.
  rewrite Et. cbn [bind]. destruct (t mod 2 ^ 14 =? 1); [| exact I].
  unfold validate_u16, attr_get_payload_len. rewrite En. cbn [bind].
  destruct ((n - ATTR_HDRLEN) mod 2 ^ 16 <? 2) eqn:E1; [exact I |].
  destruct ((n - ATTR_HDRLEN) mod 2 ^ 16 >? 2) eqn:E2; [exact I |]. cbn [bind].
  assert (Hn2 : 6 <= n).
  { destruct (Z.le_gt_cases 6 n) as [H | H]; [exact H |]. exfalso. unfold ATTR_HDRLEN in *.
    rewrite Z.mod_small in E1 by lia. lia. }
  destruct (read_num_in le 2 b (p + 4) Hb) as [x [Ex _]]; [lia | lia |]. change (Z.of_nat 2) with 2 in Ex.
  unfold ATTR_HDRLEN. rewrite Ex. exact I.
Qed.

(** A string that ends before [stop] *)
Lemma strncpy_safe : forall m b p stop, 0 <= p < stop -> stop <= size b ->
  read b (stop - 1) 1 = Done [0%N] -> safe (strncpy m b p).
Proof.
  induction m as [| m IH]; intros b p stop Hp Hs Hz; cbn [strncpy]; [exact I |].
  destruct (read_in b p 1) as [E El]; [lia | lia | lia |].
  destruct (Z.eq_dec p (stop - 1)) as [Eq | Ne].
  - subst p. rewrite Hz. cbn [bind hd]. rewrite N.eqb_refl. exact I.
  - rewrite E. cbn [bind]. destruct (hd 0%N _ =? 0)%N; [exact I |].
    apply safe_bind; [| intros; exact I]. apply (IH b (p + 1) stop); [lia | assumption | assumption].
Qed.

Lemma get_ifname_safe : forall le, cb_safe le (get_ifname_cb le).
Proof.
  intros le b p e d n Hb Hp En Hn Hs. unfold get_ifname_cb, attr_get_type.
  destruct (read_num_in le 2 b (p + 2) Hb) as [t [Et _]]; [lia | lia |]. change (Z.of_nat 2) with 2 in Et.
  rewrite Et. cbn [bind]. destruct (t mod 2 ^ 14 =? 8); [| exact I].
  assert (Hn16 : n < 2 ^ 16).
  { destruct (read_num_in le 2 b p Hb) as [z [Ez Hz]]; [lia | lia |].
    change (Z.of_nat 2) with 2 in Ez. rewrite Ez in En. injection En as <-.
    change (256 ^ Z.of_nat 2) with (2 ^ 16) in Hz. lia. }
  unfold validate_nul_string, attr_get_payload_len. rewrite En. cbn [bind].
  unfold ATTR_HDRLEN. rewrite Z.mod_small by lia.
  destruct (Z.eqb_spec (n - 4) 0) as [E0 | E0]; [exact I |].
  destruct (read_num_in le 1 b (p + 4 + (n - 4 - 1)) Hb) as [c [Ec Hc]]; [lia | lia |].
  change (Z.of_nat 1) with 1 in Ec. rewrite Ec. cbn [bind].
  destruct (Z.eqb_spec c 0) as [Ez | Ez]; [| exact I]. cbn [bind].
  apply safe_bind; [| intros; exact I].
  apply (strncpy_safe 15 b (p + 4) (p + n)); [lia | assumption |].
  destruct (read_in b (p + n - 1) 1) as [E El]; [lia | lia | lia |].
  unfold read_num in Ec. replace (p + 4 + (n - 4 - 1)) with (p + n - 1) in Ec by lia. rewrite E in Ec. rewrite E.
  cbn [bind] in Ec. set (l := firstn (Z.to_nat 1) (skipn (Z.to_nat (p + n - 1)) b)) in *.
  destruct l as [| x [|]]; cbn in El; try discriminate El. injection Ec as Ec.
  do 2 f_equal. unfold host in Ec. destruct le; cbn in Ec; lia.
Qed.

(** ** Messages *)

Lemma attr_loop_safe : forall (D : Type) le (cb : attr_cb D) b tail, cb_safe le cb -> bytes b ->
  tail mod 4 = 0 -> tail <= size b -> size b < 2 ^ 31 ->
  forall fuel p res e d, 0 <= p <= 2 ^ 31 -> 0 <= tail -> p mod 4 = 0 -> (0 < fuel)%nat -> tail - p < Z.of_nat fuel ->
  safe (attr_loop le cb b tail fuel p res e d).
Proof.
  intros D le cb b tail Hcb Hb Ht Hts Hsz fuel.
  induction fuel as [| fuel IH]; intros p res e d Hp Ht0 Hp4 Hf0 Hf; [lia |]. cbn [attr_loop].
  rewrite int_small by lia. unfold attr_ok. destruct (Z.ltb_spec (tail - p) 4) as [H4 | H4]; [exact I |].
  destruct (read_num_in le 2 b p Hb) as [n [En Hn]]; [lia | lia |]. change (Z.of_nat 2) with 2 in En.
  change (256 ^ Z.of_nat 2) with (2 ^ 16) in Hn.
  rewrite En. cbn [bind]. destruct ((4 <=? n) && (n <=? tail - p)) eqn:Eok; cbn [negb]; [| exact I].
  apply safe_bind; [apply (Hcb b p e d n); assumption || lia |].
  intros [[res' e'] d'] _. destruct (res' <=? CB_STOP); [exact I |].
  cbn [bind].
  assert (Ha : n <= align n /\ p + align n <= tail /\ align n mod 4 = 0) by (unfold align; lia).
  apply IH; lia.
Qed.

Lemma one_message_safe : forall (D : Type) le (cb : option (attr_cb D)) l c seq portid,
  (match cb with Some cb => cb_safe le cb | None => True end) ->
  bytes (l ++ c) -> tame le l -> size (l ++ c) mod 4 = 0 -> size (l ++ c) < 2 ^ 31 ->
  forall fuel q res e d L,
  header_at le l q -> Z.of_nat q mod 4 = 0 -> L = word le 4 l q -> 16 <= L -> Z.of_nat q + L <= size l -> L < Z.of_nat fuel ->
  safe (one_message le cb (l ++ c) fuel seq portid 4 (Z.of_nat q) res e d).
Proof.
  intros D le cb l c seq portid Hcb Hb Htame Hs4 Hs31 fuel q res e d L Hh Hq HL H16 Hfit Hfuel.
  pose proof (size_app l c) as Hsa. pose proof (size_nonneg c) as Hc0.
  assert (Hql : (q + 16 <= length l)%nat) by (unfold size in *; lia).
  destruct (Htame q Hh Hql) as [Hw He]. rewrite <- HL in Hw.
  unfold one_message.
  assert (R4 : forall i, (q + i + 4 <= length l)%nat ->
            exists z, read_num le 4 (l ++ c) (Z.of_nat q + Z.of_nat i) = Done z).
  { intros i Hi. destruct (read_num_in le 4 (l ++ c) (Z.of_nat q + Z.of_nat i) Hb) as [z [Ez _]];
      [lia | unfold size in *; lia | eexists; exact Ez]. }
  assert (R2 : forall i, (q + i + 2 <= length l)%nat ->
            exists z, read_num le 2 (l ++ c) (Z.of_nat q + Z.of_nat i) = Done z).
  { intros i Hi. destruct (read_num_in le 2 (l ++ c) (Z.of_nat q + Z.of_nat i) Hb) as [z [Ez _]];
      [lia | unfold size in *; lia | eexists; exact Ez]. }
  destruct (R4 12%nat) as [pid Epid]; [lia |]. unfold get_pid. change 12 with (Z.of_nat 12). rewrite Epid. cbn [bind].
  destruct (seq_ok pid portid); cbn [negb]; [| exact I].
  destruct (R4 8%nat) as [sq Esq]; [lia |]. unfold get_seq. change 8 with (Z.of_nat 8). rewrite Esq. cbn [bind].
  destruct (seq_ok sq seq); cbn [negb]; [| exact I].
  destruct (R2 6%nat) as [fl Efl]; [lia |]. unfold get_flags. change 6 with (Z.of_nat 6). rewrite Efl. cbn [bind].
  destruct (Z.testbit fl 4); [exact I |].
  assert (Et : get_msg_type le (l ++ c) (Z.of_nat q) = Done (word le 2 l (q + 4))).
  { unfold get_msg_type. change 4 with (Z.of_nat 4). rewrite <- Nat2Z.inj_add. change 2 with (Z.of_nat 2).
    apply read_word. lia. }
  rewrite Et. cbn [bind].
  assert (EL : get_len le (l ++ c) (Z.of_nat q) = Done L).
  { unfold get_len. change 4 with (Z.of_nat 4). rewrite HL. apply read_word. lia. }
  destruct (16 <=? word le 2 l (q + 4)) eqn:E16.
  - destruct cb as [cb |]; [| exact I]. apply safe_bind; [| intros [[x y] z] _; exact I].
    unfold attr_parse. rewrite EL. cbn [bind]. rewrite align32_small by lia. change (align 4) with 4. unfold HDRLEN.
    assert (Ha : L <= align L < L + 4 /\ align L mod 4 = 0) by (unfold align; lia).
    apply attr_loop_safe; [assumption | assumption | lia | unfold size in *; lia | assumption | unfold size in *; lia | lia | lia | lia | lia].
  - destruct (Z.eqb_spec (word le 2 l (q + 4)) 2) as [E2 | E2].
    + apply safe_bind; [| intros [x y] _; exact I].
      unfold cb_error. rewrite EL. cbn [bind]. destruct (Z.ltb_spec L (HDRLEN + 20)) as [Hlt | Hge]; [exact I |].
      unfold HDRLEN in *. assert (Hq20 : (q + 20 <= length l)%nat) by (unfold size in *; lia).
      specialize (He Hq20 E2).
      assert (Ee : read_num le 4 (l ++ c) (Z.of_nat q + 16) = Done (word le 4 l (q + 16))).
      { change 16 with (Z.of_nat 16). rewrite <- Nat2Z.inj_add. change 4 with (Z.of_nat 4). apply read_word. lia. }
      rewrite Ee. cbn [bind].
      destruct (read_num_in le 4 (l ++ c) (Z.of_nat q + 16) Hb) as [z [Ez Hz]]; [lia | unfold size in *; lia |].
      change (Z.of_nat 4) with 4 in Ez. rewrite Ee in Ez. injection Ez as <-.
      change (256 ^ Z.of_nat 4) with (2 ^ 32) in Hz.
      assert (Hi : int (word le 4 l (q + 16)) <> - 2 ^ 31).
      { unfold int. intros Hi. apply He. lia. }
      destruct (Z.eqb_spec (int (word le 4 l (q + 16))) (- 2 ^ 31)); [contradiction | exact I].
    + destruct (word le 2 l (q + 4) =? 3); [exact I |].
      destruct ((word le 2 l (q + 4) =? 1) || (word le 2 l (q + 4) =? 4)); exact I.
Qed.

Lemma cb_run_safe : forall (D : Type) le (cb : option (attr_cb D)) l c seq portid,
  (match cb with Some cb => cb_safe le cb | None => True end) ->
  bytes (l ++ c) -> tame le l -> size (l ++ c) mod 4 = 0 -> size (l ++ c) < 2 ^ 31 ->
  forall fuel q res e d, header_at le l q -> Z.of_nat q mod 4 = 0 -> Z.of_nat q <= size l + 3 ->
  size l - Z.of_nat q < Z.of_nat fuel -> (0 < fuel)%nat ->
  safe (cb_run le cb (l ++ c) seq portid 4 fuel (Z.of_nat q) (size l - Z.of_nat q) res e d).
Proof.
  intros D le cb l c seq portid Hcb Hb Htame Hs4 Hs31 fuel.
  pose proof (size_app l c) as Hsa. pose proof (size_nonneg c) as Hc0. pose proof (size_nonneg l) as Hl0.
  induction fuel as [| fuel IH]; intros q res e d Hh Hq Hql Hf Hf0; [lia |]. cbn [cb_run]. unfold nlmsg_ok.
  destruct (Z.ltb_spec (size l - Z.of_nat q) HDRLEN) as [Hlt | Hge]; [exact I |]. unfold HDRLEN in *.
  assert (Hq16 : (q + 16 <= length l)%nat) by (unfold size in *; lia).
  destruct (Htame q Hh Hq16) as [Hw _]. set (L := word le 4 l q) in *.
  assert (EL : get_len le (l ++ c) (Z.of_nat q) = Done L).
  { unfold get_len. change 4 with (Z.of_nat 4). apply read_word. lia. }
  assert (HL0 : 0 <= L).
  { destruct (read_num_in le 4 (l ++ c) (Z.of_nat q) Hb) as [z [Ez Hz]]; [lia | lia |].
    change (Z.of_nat 4) with 4 in Ez. unfold get_len in EL. rewrite EL in Ez. injection Ez as <-. lia. }
  rewrite EL. cbn [bind]. rewrite int_small by lia.
  destruct ((16 <=? L) && (L <=? size l - Z.of_nat q)) eqn:Eok; cbn [negb]; [| exact I].
  apply safe_bind.
  - apply one_message_safe with (L := L); try assumption; try reflexivity; lia.
  - intros [[[res' e'] d'] on] _. destruct on; cbn [negb]; [| exact I]. cbn [bind].
    rewrite align32_small by lia.
    assert (Ha : L <= align L < L + 4 /\ align L mod 4 = 0) by (unfold align; lia).
    rewrite int_small by lia.
    set (q' := Z.to_nat (Z.of_nat q + align L)).
    assert (Hq' : Z.of_nat q' = Z.of_nat q + align L) by (unfold q'; lia).
    rewrite <- Hq'. replace (size l - Z.of_nat q - align L) with (size l - Z.of_nat q') by lia.
    apply IH; [| lia | lia | lia | lia].
    apply H_next with (p := q); [exact Hh | exact Hq16 | fold L; lia | fold L; unfold len, size in *; lia |].
    fold L. rewrite Hq'. reflexivity.
Qed.

(** ** A request *)

Lemma ends_bind : forall (A B : Type) (x : out A) (f : A -> out B), ends x -> (forall a, x = Done a -> ends (f a)) -> ends (bind x f).
Proof. intros A B x f Hx Hf. destruct x; cbn in *; try contradiction; auto. Qed.

Lemma nl_loop_safe : forall (D : Type) le (cb : option (attr_cb D)) seq portid,
  (match cb with Some cb => cb_safe le cb | None => True end) ->
  forall rs fuel buf e d, Forall (arrives_tame le) rs -> bytes buf -> size buf mod 4 = 0 -> size buf < 2 ^ 31 ->
  size buf < Z.of_nat fuel -> ends (nl_loop le cb seq portid 4 fuel buf rs e d).
Proof.
  intros D le cb seq portid Hcb rs. induction rs as [| r rs IH]; intros fuel buf e d F Hb H4 H31 Hf; cbn [nl_loop]; [exact I |].
  apply Forall_cons_iff in F. destruct F as [F1 F2]. destruct r as [er | l]; cbn [receive]; [exact I |].
  destruct F1 as [Fb Ft]. destruct (Z.ltb_spec (size buf) (size l)) as [Hlt | Hge]; [exact I |].
  set (c := skipn (length l) buf).
  assert (Es : size (l ++ c) = size buf).
  { unfold c, size. rewrite app_length, skipn_length. unfold size in Hge. lia. }
  assert (Hb' : bytes (l ++ c)).
  { apply Forall_app. split; [exact Fb |]. unfold c. unfold bytes in Hb.
    rewrite <- (firstn_skipn (length l) buf) in Hb. apply Forall_app in Hb. tauto. }
  pose proof (cb_run_safe D le cb l c seq portid Hcb Hb' Ft ltac:(now rewrite Es) ltac:(now rewrite Es) fuel 0 CB_OK e d (H_first le l) eq_refl) as S.
  change (Z.of_nat 0) with 0 in S. rewrite Z.sub_0_r in S. pose proof (size_nonneg l) as Hl.
  specialize (S ltac:(lia) ltac:(lia) ltac:(lia)).
  apply ends_bind; [destruct (cb_run le cb (l ++ c) seq portid 4 fuel 0 (size l) CB_OK e d); cbn in *; auto |].
  intros [[err e'] d'] _. destruct (CB_STOP <? err); [| exact I].
  apply IH; [assumption | assumption | now rewrite Es | now rewrite Es | now rewrite Es].
Qed.

Lemma request_safe : forall le fuel last fam n buf0 name sent rs e r,
  name_fits r -> (128 <= n)%nat -> bytes buf0 -> size buf0 mod 4 = 0 -> size buf0 < 2 ^ 31 -> size buf0 < Z.of_nat fuel ->
  Forall (arrives_tame le) rs ->
  ends (run_request le fuel last fam n buf0 name sent rs e r).
Proof.
  intros le fuel last fam n buf0 name sent rs e r Hr Hn Hb H4 H31 Hf F.
  rewrite run_request_eq by assumption. cbv zeta.
  destruct r as [| fd id | id s | id | id];
    (apply ends_bind; [| intros [[ok e'] d] _; exact I]); (destruct sent as [er |]; [exact I |]);
    apply nl_loop_safe; try assumption; try exact I; [apply getfamily_safe | apply get_ifname_safe].
Qed.
