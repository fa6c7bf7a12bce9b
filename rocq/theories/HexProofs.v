(** Lemmas about keys in hexadecimal. *)
From Verif Require Import Base BaseLemmas BufferModel NameModel NameProofs HexModel HexSpec.

Lemma digit_spec : forall c v, digit c = Some v <-> digit_is c v.
Proof.
  intros c v. unfold digit, digit_is.
  destruct ((48 <=? c) && (c <=? 57))%N eqn:E1;
  destruct ((97 <=? c) && (c <=? 102))%N eqn:E2;
  destruct ((65 <=? c) && (c <=? 70))%N eqn:E3;
  split; intros H; try (injection H as <-); try (f_equal); try lia; try discriminate H; lia.
Qed.

Lemma digit_hexchars : forall c, existsb (N.eqb c) hexchars = true <-> exists v, digit c = Some v.
Proof.
  intros c. split.
  - intros H. apply existsb_exists in H. destruct H as (x & Hx & E). apply N.eqb_eq in E. subst x.
    vm_compute in Hx.
    repeat (destruct Hx as [<-|Hx]; [eexists; vm_compute; reflexivity|]). contradiction.
  - intros (v & H). apply digit_spec in H. apply existsb_exists. exists c. split; [|apply N.eqb_refl].
    assert (Hc : (c <= 102)%N) by (unfold digit_is in H; lia).
    replace c with (N.of_nat (N.to_nat c)) in * by lia. set (n := N.to_nat c) in *. clearbody n. clear c.
    assert (Hn : n < 103) by lia.
    do 103 (destruct n as [|n]; [unfold digit_is in H; cbn in H; try lia; vm_compute; tauto|]). lia.
Qed.

Lemma strspn_all : forall s a, strspn s a = List.length s <-> forall c, In c s -> existsb (N.eqb c) a = true.
Proof.
  intros s a. induction s as [|c s IH]; cbn [strspn List.length].
  - split; [intros _ c []|reflexivity].
  - destruct (existsb (N.eqb c) a) eqn:E.
    + split.
      * intros H x [<-|Hx]; [exact E|]. apply IH; [lia|exact Hx].
      * intros H. f_equal. apply IH. intros x Hx. apply H. now right.
    + split; [lia|]. intros H. rewrite (H c (or_introl eq_refl)) in E. discriminate.
Qed.

Lemma spells_length : forall s k, spells s k -> List.length s = 2 * List.length k.
Proof. intros s k H. induction H; cbn [List.length]; lia. Qed.

Lemma spells_digits : forall s k c, spells s k -> In c s -> exists v, digit c = Some v.
Proof.
  intros s k c H. induction H as [|a b x y s k Ha Hb Hs IH]; intros Hc; [contradiction|].
  destruct Hc as [<-|[<-|Hc]].
  - exists x. now apply digit_spec.
  - exists y. now apply digit_spec.
  - now apply IH.
Qed.

Lemma spells_exists : forall n s, List.length s = 2 * n -> (forall c, In c s -> exists v, digit c = Some v) ->
  exists k, spells s k /\ List.length k = n.
Proof.
  induction n as [|n IH]; intros s Hl Hd.
  - destruct s; [|cbn in Hl; lia]. exists []. split; [constructor|reflexivity].
  - destruct s as [|a [|b s]]; [cbn in Hl; lia|cbn in Hl; lia|].
    destruct (Hd a ltac:(now left)) as (x & Hx). destruct (Hd b ltac:(right; now left)) as (y & Hy).
    destruct (IH s) as (k & Hk & Hkl); [cbn [List.length] in Hl; lia|intros c Hc; apply Hd; now right; right|].
    exists ((16 * x + y)%N :: k). split; [constructor; try assumption; now apply digit_spec|cbn; lia].
Qed.

Lemma spells_fun : forall s k1, spells s k1 -> forall k2, spells s k2 -> k1 = k2.
Proof.
  intros s k1 H. induction H as [|a b x y s k Ha Hb Hs IH]; intros k2 H2.
  - now inversion H2.
  - inversion H2 as [|a' b' x' y' s' k' Ha' Hb' Hs']; subst.
    rewrite (IH _ Hs'). apply digit_spec in Ha, Hb, Ha', Hb'. congruence.
Qed.

Lemma spells_app : forall s1 k1 s2 k2, spells s1 k1 -> spells s2 k2 -> spells (s1 ++ s2) (k1 ++ k2).
Proof. intros s1 k1 s2 k2 H. induction H; intros H2; cbn; [exact H2|constructor; auto]. Qed.

(** [spells] of the first half, seen from the loop *)
Lemma read_loop_spec : forall s' k', spells s' k' -> forall s k, spells s k ->
  read_loop (List.length k') (List.length k) (map Some k ++ repeat None (List.length k')) (s ++ s') = Ok (map Some (k ++ k')).
Proof.
  intros s' k' H. induction H as [|a b x y s' k' Ha Hb Hs IH]; intros s k Hk.
  - cbn. now rewrite !app_nil_r.
  - cbn [List.length read_loop]. pose proof (spells_length _ _ Hk) as Hl.
    rewrite (proj2 (Nat.leb_le (2 * List.length k) (List.length (s ++ a :: b :: s')))) by (rewrite app_length; lia).
    rewrite <- Hl, skipn_app, Nat.sub_diag, skipn_all2 by lia. cbn [skipn app].
    cbn [scan_hhx]. rewrite (proj2 (digit_spec _ _) Ha), (proj2 (digit_spec _ _) Hb).
    rewrite (put_next k [(16 * x + y)%N] (S (List.length k'))) by (cbn; lia). cbn [bind List.length].
    replace (S (List.length k') - 1) with (List.length k') by lia.
    specialize (IH (s ++ [a; b]) (k ++ [(16 * x + y)%N])).
    rewrite app_length in IH. cbn [List.length] in IH. rewrite Nat.add_1_r, <- !app_assoc in IH. cbn [app] in IH.
    apply IH. apply spells_app; [exact Hk|]. apply sp_cons; [exact Ha|exact Hb|constructor].
Qed.

Lemma read_key_spells : forall s k, List.length k = 32 -> spells s k -> read_key s = Ok (Some (map Some k)).
Proof.
  intros s k Hk Hs. unfold read_key. pose proof (spells_length _ _ Hs) as Hl.
  replace (List.length s =? 64) with true by (symmetry; apply Nat.eqb_eq; lia).
  replace (strspn s hexchars) with (List.length s).
  2:{ symmetry. apply strspn_all. intros c Hc. apply digit_hexchars. now apply (spells_digits s k). }
  replace (List.length s =? 64) with true by (symmetry; apply Nat.eqb_eq; lia). cbn [negb orb].
  pose proof (read_loop_spec s k Hs [] [] sp_nil) as H. rewrite Hk in H.
  cbn [List.length map app] in H. unfold byte in H. rewrite H. reflexivity.
Qed.

Lemma read_key_iff : forall s, (exists k, List.length k = 32 /\ spells s k /\ read_key s = Ok (Some (map Some k))) \/
  ((forall k, List.length k = 32 -> ~ spells s k) /\ read_key s = Ok None).
Proof.
  intros s. destruct (negb (Nat.eqb (List.length s) 64) || negb (Nat.eqb (strspn s hexchars) 64)) eqn:E.
  - right. unfold read_key. split; [|now rewrite E].
    intros k Hl Hk. pose proof (read_key_spells s k Hl Hk) as H. unfold read_key in H. rewrite E in H. discriminate.
  - left. apply orb_false_iff in E. destruct E as (E1 & E2). apply negb_false_iff, Nat.eqb_eq in E1, E2.
    destruct (spells_exists 32 s E1) as (k & Hk & Hl).
    { intros x Hx. apply digit_hexchars. revert x Hx. apply strspn_all. rewrite E2. symmetry. exact E1. }
    exists k. split; [exact Hl|]. split; [exact Hk|]. now apply read_key_spells.
Qed.

(** * Printing *)
Definition text (d : bytes) : bytes := flat_map (fun b => [xdigit (b / 16); xdigit (b mod 16)]%N) d.

Lemma text_length : forall d, List.length (text d) = 2 * List.length d.
Proof. induction d as [|b d IH]; [reflexivity|]. cbn [text flat_map app List.length]. fold (text d). rewrite IH. lia. Qed.

Lemma xdigit_is : forall v, (v < 16)%N -> digit_is (xdigit v) v /\ ~ is_capital (xdigit v) /\ xdigit v <> 0%N.
Proof. intros v H. unfold xdigit, digit_is, is_capital. destruct (v <? 10)%N eqn:E; lia. Qed.

Lemma text_spells : forall d, wf_bytes d -> spells (text d) d.
Proof.
  induction d as [|b d IH]; intros H; [constructor|]. inversion H as [|? ? Hb Hd]; subst. unfold is_byte in Hb.
  cbn [text flat_map app]. fold (text d).
  replace b with (16 * (b / 16) + b mod 16)%N at 3 by lia.
  constructor; [apply xdigit_is; lia|apply xdigit_is; lia|now apply IH].
Qed.

Lemma text_chars : forall d c, wf_bytes d -> In c (text d) -> ~ is_capital c /\ c <> 0%N.
Proof.
  intros d c H Hc. apply in_flat_map in Hc. destruct Hc as (b & Hb & Hc).
  assert (Hbb : (b < 256)%N) by exact (proj1 (Forall_forall _ _) H b Hb).
  destruct Hc as [<-|[<-|[]]]; apply xdigit_is; lia.
Qed.

Lemma put_over : forall (d x : bytes) o n, List.length x <= S n ->
  put (map Some d ++ o :: repeat None n) (List.length d) x = Ok (map Some (d ++ x) ++ skipn (List.length x) (o :: repeat None n)).
Proof.
  intros d x o n H. unfold put. rewrite app_length, map_length. cbn [List.length]. rewrite repeat_length.
  rewrite (proj2 (Nat.leb_le _ _)) by lia.
  f_equal. rewrite firstn_app, map_length, Nat.sub_diag. cbn [firstn]. rewrite firstn_all2 by (rewrite map_length; lia). rewrite app_nil_r.
  rewrite skipn_app, map_length. rewrite skipn_all2 by (rewrite map_length; lia). cbn [app]. rewrite map_app, <- app_assoc. f_equal. f_equal.
  f_equal. lia.
Qed.

Lemma skipn_repeat' : forall (A : Type) (x : A) n m, skipn m (repeat x n) = repeat x (n - m).
Proof. intros A x n. induction n as [|n IH]; intros m; destruct m; cbn; try reflexivity. apply IH. Qed.

(** after [i] bytes: the text, a zero (if [i] is not 0) and room *)
Lemma hexdump_loop_spec : forall n done todo o r, List.length todo = n -> List.length r = 2 * n -> r = repeat None (2 * n) ->
  exists o', hexdump_loop n (List.length done) (map Some (text done) ++ o :: r) (done ++ todo) = Ok (map Some (text (done ++ todo)) ++ [o']) /\
  (n <> 0 -> o' = Some 0%N) /\ (n = 0 -> o' = o).
Proof.
  induction n as [|n IH]; intros done todo o r Ht Hr Er.
  - destruct todo; [|discriminate]. destruct r; [|discriminate]. exists o. rewrite app_nil_r. cbn. repeat split; congruence.
  - destruct todo as [|b todo]; [discriminate|]. cbn [hexdump_loop].
    rewrite nth_error_app2, Nat.sub_diag by lia. cbn [nth_error]. unfold snprintf_02x. cbn [firstn app].
    rewrite <- text_length. rewrite Er. rewrite put_over by (cbn [List.length]; lia). cbn [bind List.length].
    replace (2 * S n) with (S (S (2 * n))) by lia. cbn [repeat skipn].
    specialize (IH (done ++ [b]) todo (Some 0%N) (repeat None (2 * n))).
    rewrite app_length in IH. cbn [List.length] in IH. rewrite Nat.add_1_r in IH.
    rewrite <- app_assoc in IH. cbn [app] in IH.
    destruct IH as (o' & H1 & H2 & H3); [cbn in Ht; lia|apply repeat_length|reflexivity|].
    exists o'. split; [|split; [|discriminate]].
    + rewrite <- H1. f_equal. unfold text. rewrite flat_map_app. cbn [flat_map app].
      rewrite !map_app, <- !app_assoc. reflexivity.
    + intros _. destruct n as [|n]; [rewrite H3 by reflexivity; reflexivity|apply H2; discriminate].
Qed.

Lemma hexdump_spec : forall d, List.length d = 32 -> hexdump d = Ok (map Some (text d ++ [0%N])).
Proof.
  intros d H. unfold hexdump.
  destruct (hexdump_loop_spec 32 [] d None (repeat None 64) H eq_refl eq_refl) as (o' & H1 & H2 & _).
  cbn [List.length text flat_map map app] in H1. change (repeat None 65) with (@None N :: repeat None 64).
  unfold byte in H1. rewrite H1, H2, map_app by discriminate. reflexivity.
Qed.

Lemma cstr_text : forall (s : bytes) r, (forall c, In c s -> c <> 0%N) -> cstr (map Some s ++ Some 0%N :: r) = Ok s.
Proof.
  induction s as [|c s IH]; intros r H; [reflexivity|]. cbn [map app cstr].
  destruct (c =? 0)%N eqn:E; [apply N.eqb_eq in E; exfalso; exact (H c (or_introl eq_refl) E)|].
  rewrite IH by (intros x Hx; apply H; now right). reflexivity.
Qed.

Lemma hexdump_ok : forall d, List.length d = 32 -> wf_bytes d ->
  exists s, hexdump d = Ok (map Some (s ++ [0%N])) /\ List.length s = 64 /\ spells s d /\ (forall c, In c s -> ~ is_capital c).
Proof.
  intros d Hl Hw. exists (text d). split; [now apply hexdump_spec|]. split; [rewrite text_length; lia|].
  split; [now apply text_spells|]. intros c Hc. now apply (text_chars d).
Qed.

Lemma print_ok : forall desc d, List.length d = 32 -> wf_bytes d ->
  exists s, print_hexdump desc d = Ok (desc ++ s ++ [10%N]) /\ read_key s = Ok (Some (map Some d)).
Proof.
  intros desc d Hl Hw. exists (text d). split.
  - unfold print_hexdump. rewrite hexdump_spec by exact Hl. cbn [bind]. rewrite map_app. cbn [map].
    rewrite cstr_text; [reflexivity|]. intros c Hc. now apply (text_chars d).
  - apply read_key_spells; [exact Hl|now apply text_spells].
Qed.

Lemma spells_lower : forall s1 k, spells s1 k -> forall s2, spells s2 k <-> (map lower s2 = map lower s1 /\ forall c, In c s2 -> exists v, digit_is c v).
Proof.
  assert (D : forall a a' x, digit_is a x -> (digit_is a' x <-> lower a' = lower a /\ exists v, digit_is a' v)).
  { intros a a' x Ha. split.
    - intros Ha'. split; [|now exists x]. unfold digit_is, lower in *.
      destruct ((65 <=? a) && (a <=? 90))%N eqn:E1; destruct ((65 <=? a') && (a' <=? 90))%N eqn:E2; lia.
    - intros (H1 & v & H2). unfold digit_is, lower in *.
      destruct ((65 <=? a) && (a <=? 90))%N eqn:E1; destruct ((65 <=? a') && (a' <=? 90))%N eqn:E2; lia. }
  assert (Lt : forall a x, digit_is a x -> (x < 16)%N) by (intros a x H; unfold digit_is in H; lia).
  intros s1 k H. induction H as [|a b x y s k Ha Hb Hs IH]; intros s2.
  - split.
    + intros H2. inversion H2; subst. split; [reflexivity|intros c []].
    + intros (H2 & _). destruct s2; [constructor|discriminate].
  - split.
    + intros H2. inversion H2 as [|a' b' x' y' s' k' Ha' Hb' Hs' E1 E2]; subst.
      pose proof (Lt _ _ Ha). pose proof (Lt _ _ Hb). pose proof (Lt _ _ Ha'). pose proof (Lt _ _ Hb').
      assert (x' = x) by lia. assert (y' = y) by lia. subst x' y'.
      apply IH in Hs'. destruct Hs' as (M3 & M4). cbn [map]. split.
      * f_equal; [now apply (D a a' x)|]. f_equal; [now apply (D b b' y)|exact M3].
      * intros c [<-|[<-|Hc]]; [now exists x|now exists y|now apply M4].
    + intros (H2 & H3). destruct s2 as [|a' [|b' s']]; [discriminate|discriminate|].
      cbn [map] in H2. injection H2 as E1 E2 E3. constructor.
      * apply (D a a' x Ha). split; [exact E1|]. apply H3. now left.
      * apply (D b b' y Hb). split; [exact E2|]. apply H3. right. now left.
      * apply IH. split; [exact E3|]. intros c Hc. apply H3. right. now right.
Qed.

Lemma describe_ok : forall len d, len <> 0 -> List.length d = 32 -> wf_bytes d ->
  exists s, spells s d /\ (forall c, In c s -> ~ is_capital c) /\ describe_peer len d = Ok (firstn (len - 1) s).
Proof.
  intros len d Hn Hl Hw. exists (text d). split; [now apply text_spells|]. split; [intros c Hc; now apply (text_chars d)|].
  unfold describe_peer. rewrite hexdump_spec by exact Hl. cbn [bind]. rewrite map_app. cbn [map].
  rewrite cstr_text by (intros c Hc; now apply (text_chars d)). cbn [bind].
  destruct len as [|n]; [contradiction|]. unfold snprintf_s. replace (S n - 1) with n by lia.
  rewrite put_front by (rewrite app_length, firstn_length; cbn [List.length]; lia). cbn [bind].
  rewrite map_app, <- app_assoc. cbn [map app]. apply cstr_text.
  intros c Hc. apply (text_chars d); [exact Hw|]. rewrite <- (firstn_skipn n). apply in_or_app. now left.
Qed.
