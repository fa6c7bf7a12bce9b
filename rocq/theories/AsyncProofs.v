From Coq Require Import Lia ZifyBool ZifyNat ZifyN.
From Verif Require Import Base BaseLemmas BufferModel MethodModel AddrModel AddrSpec AddrProofs AsyncModel AsyncSpec.
Local Open Scope N_scope.

Lemma mwrite_at : forall off p x d s, off = length p -> length x = length d -> mwrite off d (p ++ x ++ s) = Ok (p ++ d ++ s).
Proof.
  intros off p x d s -> Hx. unfold mwrite. rewrite !app_length.
  replace (Nat.leb _ _) with true by lia.
  rewrite firstn_app, firstn_all2, Nat.sub_diag, firstn_O, app_nil_r by lia.
  rewrite skipn_app, skipn_all2 by lia. cbn [app].
  replace (length p + length d - length p)%nat with (length x) by lia.
  rewrite skipn_app, skipn_all2, Nat.sub_diag by lia. reflexivity.
Qed.

Lemma mread_at : forall off n p x s, off = length p -> n = length x -> mread off n (p ++ x ++ s) = Ok x.
Proof.
  intros off n p x s -> ->. unfold mread. rewrite !app_length.
  replace (Nat.leb _ _) with true by lia.
  rewrite skipn_app, skipn_all2, Nat.sub_diag by lia. cbn [app skipn].
  rewrite firstn_app, firstn_all2, Nat.sub_diag, firstn_O, app_nil_r by lia. reflexivity.
Qed.

Lemma pad_length : forall n l, (length l <= n)%nat -> length (pad n l) = n.
Proof. intros n l Hl. unfold pad. rewrite app_length, repeat_length. lia. Qed.

Lemma addr_bytes_length : forall a, swf a -> length (addr_bytes a) = 28%nat.
Proof.
  intros a Ha. unfold addr_bytes. apply pad_length.
  destruct a; cbn [swf] in Ha; rewrite ?app_length, ?le_bytes_length; cbn [length]; unfold ADDR_SIZE; try lia.
Qed.

Lemma list_len : forall {A} (l : list A) n, length l = S n -> exists x r, l = x :: r /\ length r = n.
Proof. intros A [|x r] n H; [discriminate|]. exists x, r. cbn in H. split; [reflexivity|lia]. Qed.

Ltac explode H :=
  let x := fresh "x" in let r := fresh "r" in let E := fresh "E" in
  first [ apply list_len in H; destruct H as (x & r & E & H); subst; explode H
        | apply length_zero_iff_nil in H; subst ].

Lemma addr_of_bytes : forall a, swf a -> (forall f, a = AOther f -> f < 2 ^ 16 /\ f <> 0 /\ f <> 2 /\ f <> 10) ->
  addr_of (addr_bytes a) = a.
Proof.
  intros a Ha Hf. destruct a as [|ip port|ip port flow scope|f]; cbn [swf] in Ha.
  - reflexivity.
  - destruct Ha as (H1 & _ & H2 & _). explode H1. explode H2. reflexivity.
  - destruct Ha as (H1 & _ & H2 & _ & H3 & _ & H4 & _). explode H1. explode H2. explode H3. explode H4. reflexivity.
  - destruct (Hf f eq_refl) as (H1 & H2 & H3 & H4).
    unfold addr_of, addr_bytes, pad. rewrite firstn_app, firstn_all2, le_bytes_length, Nat.sub_diag, firstn_O, app_nil_r by (rewrite le_bytes_length; lia).
    rewrite le_val_le_bytes. change (8 * N.of_nat 2) with 16. rewrite N.mod_small by lia.
    replace (f =? 0) with false by lia. replace (f =? 2) with false by lia. replace (f =? 10) with false by lia. reflexivity.
Qed.

(** *** The addresses found *)
Definition slot (raw : bytes) : bytes := simplify_mem (pad ADDR_SIZE raw).

Lemma family_cases : forall raw, wf_bytes raw -> (2 <= length raw)%nat ->
  (family raw = 2 <-> exists r, raw = 2 :: 0 :: r) /\ (family raw = 10 <-> exists r, raw = 10 :: 0 :: r).
Proof.
  intros raw Hw Hl. destruct raw as [|a [|b r]]; cbn [length] in Hl; try lia.
  inversion_clear Hw as [|? ? Ha Hw']. inversion_clear Hw' as [|? ? Hb Hr].
  unfold family, is_byte in *. cbn [firstn le_val].
  split; (split; [intros E; exists r; f_equal; [lia|f_equal; lia]|intros (r' & E); injection E as -> -> _; lia]).
Qed.

Lemma usable_iff : forall raw, wf_bytes raw -> (2 <= length raw)%nat ->
  usable raw = negb (Nat.ltb ADDR_SIZE (length raw) || (negb (family raw =? 2) && negb (family raw =? 10))).
Proof.
  intros raw Hw Hl. destruct (family_cases raw Hw Hl) as (H2 & H10). unfold usable, ADDR_SIZE.
  replace (Nat.leb (length raw) 28) with (negb (Nat.ltb 28 (length raw))) by lia.
  rewrite negb_orb. f_equal.
  destruct (family raw =? 2) eqn:E2.
  { assert (E : family raw = 2) by lia. apply H2 in E. destruct E as (r & ->). reflexivity. }
  destruct (family raw =? 10) eqn:E10.
  { assert (E : family raw = 10) by lia. apply H10 in E. destruct E as (r & ->). reflexivity. }
  cbn [negb andb].
  destruct raw as [|a [|b r]]; cbn [length] in Hl; try lia.
  destruct (a =? 2) eqn:Ea.
  { assert (a = 2) by lia; subst a. destruct (b =? 0) eqn:Eb; [assert (b = 0) by lia; subst b; pose proof (proj2 H2 (ex_intro _ r eq_refl)) as E; rewrite E in E2; discriminate|].
    destruct b; [discriminate|reflexivity]. }
  destruct (a =? 10) eqn:Eb.
  { assert (a = 10) by lia; subst a. destruct (b =? 0) eqn:Ebb; [assert (b = 0) by lia; subst b; pose proof (proj2 H10 (ex_intro _ r eq_refl)) as E; rewrite E in E10; discriminate|].
    destruct b; [discriminate|reflexivity]. }
  clear - Ea Eb. destruct a as [|p]; [reflexivity|].
  repeat (destruct p as [p|p|]; try reflexivity; try discriminate).
Qed.

Lemma slot_length : forall raw, (length raw <= 28)%nat -> wf_bytes raw -> length (slot raw) = 28%nat.
Proof.
  intros raw Hl Hw. unfold slot, simplify_mem.
  assert (HP : length (pad ADDR_SIZE raw) = 28%nat) by (apply pad_length; exact Hl).
  remember (pad ADDR_SIZE raw) as m. clear - HP.
  assert (HM := HP). unfold addr_of.
  destruct (_ =? 0); [exact HM|]. destruct (_ =? 2); [exact HM|]. destruct (_ =? 10); [|exact HM].
  destruct (is_v4mapped _); [|exact HM].
  unfold addr_bytes. apply pad_length. rewrite !app_length, le_bytes_length, !skipn_length, !firstn_length, !skipn_length. unfold ADDR_SIZE. lia.
Qed.

Lemma field_pad : forall raw off n, (length raw <= 28)%nat -> (off + n <= 28)%nat ->
  firstn n (skipn off (pad ADDR_SIZE raw)) = field raw off n.
Proof.
  intros raw off n Hl Hn. unfold field. apply (nth_ext _ _ 0 0).
  - rewrite firstn_length, skipn_length, map_length, seq_length, pad_length by exact Hl. unfold ADDR_SIZE. lia.
  - intros i Hi. rewrite firstn_length, skipn_length, pad_length in Hi by exact Hl.
    assert (HM : nth i (map (fun i => nth i raw 0) (seq off n)) 0 = nth (off + i) raw 0).
    { apply nth_error_nth. rewrite nth_error_map, nth_error_nth' with (d := 0%nat) by (rewrite seq_length; lia).
      rewrite seq_nth by lia. reflexivity. }
    etransitivity; [|symmetry; exact HM]. clear HM.
    assert (HN : forall m (l : list N) d, (m < n)%nat -> nth m (firstn n l) d = nth m l d).
    { clear. induction n; intros m l d Hm; [lia|]. destruct l as [|x l]; [reflexivity|]. destruct m; [reflexivity|]. cbn [firstn nth]. apply IHn. lia. }
    rewrite HN by lia.
    assert (HS : forall (l : list N) d, nth i (skipn off l) d = nth (off + i) l d).
    { clear. induction off as [|off IH]; intros l d; [reflexivity|]. destruct l as [|x l]; [destruct i; reflexivity|]. cbn [skipn]. rewrite IH. reflexivity. }
    rewrite HS. unfold pad. destruct (Nat.lt_ge_cases (off + i) (length raw)) as [Hc|Hc].
    + rewrite app_nth1 by exact Hc. apply nth_indep. exact Hc.
    + rewrite app_nth2 by exact Hc. rewrite (nth_overflow raw) by exact Hc.
      destruct (Nat.lt_ge_cases (off + i - length raw) (ADDR_SIZE - length raw)) as [Hd|Hd].
      * rewrite nth_repeat. reflexivity.
      * unfold ADDR_SIZE in Hd. lia.
Qed.

Lemma mapped_agree : forall ip, length ip = 16%nat -> wf_bytes ip ->
  is_v4mapped ip = (forallb (fun b => b =? 0) (firstn 10 ip) && forallb (fun b => b =? 255) (firstn 2 (skipn 10 ip)))%bool.
Proof.
  intros ip Hl Hw. apply eq_true_iff_eq. rewrite (v4mapped_iff ip Hl Hw), andb_true_iff. split.
  - intros (ip4 & ->). split; reflexivity.
  - intros (H1 & H2). exists (skipn 12 ip).
    explode Hl. cbn [firstn skipn forallb andb] in H1, H2. repeat rewrite andb_true_iff in H1. repeat rewrite andb_true_iff in H2.
    repeat rewrite N.eqb_eq in H1. repeat rewrite N.eqb_eq in H2. decompose [and] H1. decompose [and] H2. subst. reflexivity.
Qed.

Lemma field_wf : forall raw off n, wf_bytes raw -> wf_bytes (field raw off n).
Proof.
  intros raw off n Hw. unfold field, wf_bytes in *. apply Forall_forall. intros b Hb.
  apply in_map_iff in Hb. destruct Hb as (i & <- & _).
  destruct (Nat.lt_ge_cases i (length raw)) as [Hc|Hc].
  - rewrite Forall_forall in Hw. apply Hw. apply nth_In. exact Hc.
  - rewrite nth_overflow by exact Hc. unfold is_byte. lia.
Qed.

Lemma head_two : forall (A : Type) raw (x y : A), (match raw with 2 :: _ => x | _ => y end) = if nth 0 raw 0 =? 2 then x else y.
Proof.
  intros A [|a r] x y; [reflexivity|]. cbn [nth]. destruct a as [|p]; [reflexivity|].
  repeat (destruct p as [p|p|]; try reflexivity).
Qed.

Lemma addr_of_slot : forall raw, wf_bytes raw -> usable raw = true -> addr_of (slot raw) = means raw.
Proof.
  intros raw Hw Hu. unfold usable in Hu. apply andb_true_iff in Hu. destruct Hu as (Hl & Hf). apply Nat.leb_le in Hl.
  unfold slot, simplify_mem.
  assert (HA : addr_of (pad ADDR_SIZE raw) = if nth 0 raw 0 =? 2 then AInet (field raw 4 4) (field raw 2 2)
    else AInet6 (field raw 8 16) (field raw 2 2) (field raw 4 4) (field raw 24 4)).
  { unfold addr_of. rewrite !(field_pad raw) by lia.
    destruct raw as [|a [|b r]]; [discriminate| |].
    - exfalso. clear - Hf. destruct a as [|p]; [discriminate|]. repeat (destruct p as [p|p|]; try discriminate).
    - unfold pad. cbn [app firstn nth]. destruct (a =? 2) eqn:E2.
      + assert (a = 2) by lia; subst a. destruct b; [reflexivity|discriminate].
      + destruct (a =? 10) eqn:E10.
        * assert (a = 10) by lia; subst a. destruct b; [reflexivity|discriminate].
        * exfalso. clear - Hf E2 E10. destruct a as [|p]; [discriminate|].
          repeat (destruct p as [p|p|]; try discriminate). }
  assert (HM : means raw = if nth 0 raw 0 =? 2 then AInet (field raw 4 4) (field raw 2 2)
    else let ip := field raw 8 16 in
      if (forallb (fun b => b =? 0) (firstn 10 ip) && forallb (fun b => b =? 255) (firstn 2 (skipn 10 ip)))%bool
      then AInet (skipn 12 ip) (field raw 2 2)
      else AInet6 ip (field raw 2 2) (field raw 4 4) (field raw 24 4)).
  { unfold means. rewrite head_two. reflexivity. }
  rewrite HM. cbv zeta. clear HM.
  rewrite HA. destruct (nth 0 raw 0 =? 2); [exact HA|].
  rewrite <- mapped_agree by (try apply field_wf; try exact Hw; unfold field; rewrite map_length, seq_length; reflexivity).
  destruct (is_v4mapped (field raw 8 16)); [|exact HA].
  apply addr_of_bytes; [|discriminate].
  cbn [swf]. split; [|split; [|split]].
  - rewrite skipn_length. unfold field. rewrite map_length, seq_length. reflexivity.
  - pose proof (field_wf raw 8 16 Hw) as HF. apply Forall_forall. intros x Hx. unfold wf_bytes in HF. rewrite Forall_forall in HF. apply HF.
    rewrite <- (firstn_skipn 12). apply in_or_app. right. exact Hx.
  - unfold field. rewrite map_length, seq_length. reflexivity.
  - apply field_wf. exact Hw.
Qed.

(** *** The resolver thread *)
Definition entry_ok (raw : bytes) : Prop := wf_bytes raw /\ (2 <= length raw)%nat.

Lemma split_at : forall {A} n (l : list A), (n <= length l)%nat -> exists a b, l = a ++ b /\ length a = n.
Proof. intros A n l H. exists (firstn n l), (skipn n l). rewrite firstn_skipn, firstn_length. split; [reflexivity|lia]. Qed.

Lemma fill_ok : forall l n p rest, Forall entry_ok l -> length p = (RR_SIZE + n * ADDR_SIZE)%nat -> (length l * ADDR_SIZE <= length rest)%nat ->
  exists rest', fill l n (p ++ rest) = Ok ((n + length (filter usable l))%nat, p ++ concat (map slot (filter usable l)) ++ rest').
Proof.
  induction l as [|raw l IH]; intros n p rest Hl Hp Hr.
  - cbn. exists rest. rewrite Nat.add_0_r. reflexivity.
  - inversion_clear Hl as [|? ? (Hw & H2) Hl']. cbn [fill filter].
    rewrite (usable_iff raw Hw H2). remember (Nat.ltb _ _ || _)%bool as skip eqn:Es. symmetry in Es. destruct skip; cbn [negb].
    + apply IH; [exact Hl'|exact Hp|cbn [length] in Hr; lia].
    + assert (HL : (length raw <= 28)%nat) by (unfold ADDR_SIZE in Es; lia).
      cbn [length] in Hr.
      destruct (split_at ADDR_SIZE rest) as (old & rest1 & -> & Hold); [lia|].
      rewrite app_length in Hr.
      rewrite (mwrite_at _ p old (repeat 0 ADDR_SIZE) rest1) by (rewrite ?repeat_length; auto). cbn [bind].
      replace (repeat 0 ADDR_SIZE) with (repeat 0 (length raw) ++ repeat 0 (ADDR_SIZE - length raw)).
      2:{ rewrite <- repeat_app. f_equal. unfold ADDR_SIZE. lia. }
      rewrite <- app_assoc. rewrite mwrite_at by (rewrite ?repeat_length; auto). cbn [bind].
      replace (raw ++ repeat 0 (ADDR_SIZE - length raw) ++ rest1) with (pad ADDR_SIZE raw ++ rest1) by (unfold pad; rewrite <- app_assoc; reflexivity).
      rewrite mread_at by (rewrite ?pad_length; auto). cbn [bind].
      rewrite mwrite_at; [|auto|rewrite pad_length by exact HL; symmetry; apply slot_length; assumption].
      cbn [bind]. fold (slot raw).
      rewrite app_assoc. destruct (IH (S n) (p ++ slot raw) rest1 Hl') as (rest' & E).
      { rewrite app_length, Hp, slot_length by assumption. unfold ADDR_SIZE. lia. }
      { lia. }
      exists rest'. rewrite E. f_equal. f_equal; [cbn [length]; lia|]. cbn [map concat]. rewrite <- !app_assoc. reflexivity.
Qed.

Definition resolve_payload (pid remote : N) (l : gai) : bytes :=
  le_bytes 8 pid ++ le_bytes 8 remote ++ le_bytes 8 (N.of_nat (length (filter usable l))) ++ concat (map slot (filter usable l)).

Lemma concat_length : forall l, Forall entry_ok l -> length (concat (map slot (filter usable l))) = (length (filter usable l) * 28)%nat.
Proof.
  induction l as [|raw l IH]; intros Hl; [reflexivity|]. inversion_clear Hl as [|? ? (Hw & H2) Hl']. cbn [filter].
  destruct (usable raw) eqn:E; [|apply IH; exact Hl'].
  cbn [map concat length]. rewrite app_length, IH by exact Hl'. rewrite slot_length; [lia| |exact Hw].
  unfold usable in E. lia.
Qed.

Lemma resolve_result_ok : forall pid remote l junk, Forall entry_ok l ->
  resolve_result pid remote l junk = Ok (datagram RESOLVE_RETURN (resolve_payload pid remote l)).
Proof.
  intros pid remote l junk Hl. unfold resolve_result.
  set (m := map junk _).
  assert (Hm : length m = (RR_SIZE + length l * ADDR_SIZE)%nat) by (unfold m; rewrite map_length, seq_length; reflexivity).
  clearbody m.
  destruct (split_at 8 m) as (x1 & m1 & -> & Hx1); [rewrite Hm; unfold RR_SIZE; lia|]. rewrite app_length in Hm.
  destruct (split_at 8 m1) as (x2 & m2 & -> & Hx2); [unfold RR_SIZE in *; lia|]. rewrite app_length in Hm.
  destruct (split_at 8 m2) as (x3 & m3 & -> & Hx3); [unfold RR_SIZE in *; lia|]. rewrite app_length in Hm.
  pose proof (mwrite_at 0 [] x1 (le_bytes 8 pid) (x2 ++ x3 ++ m3) eq_refl) as E. cbn [app] in E.
  rewrite E by (rewrite le_bytes_length; exact Hx1). clear E. cbn [bind].
  rewrite mwrite_at by (rewrite le_bytes_length; auto). cbn [bind].
  match goal with |- bind (if ?c then ?A else ?B) _ = _ => assert (HF : exists rest', (if c then A else B) =
      Ok (length (filter usable l), le_bytes 8 pid ++ le_bytes 8 remote ++ x3 ++ concat (map slot (filter usable l)) ++ rest')) end.
  { destruct l as [|raw l'] eqn:El.
    - exists m3. reflexivity.
    - rewrite <- El in *. replace (Nat.eqb (length l) 0) with false by (rewrite El; reflexivity).
      destruct (fill_ok l 0 (le_bytes 8 pid ++ le_bytes 8 remote ++ x3) m3 Hl) as (rest' & E).
      { rewrite !app_length, !le_bytes_length. unfold RR_SIZE. lia. }
      { unfold RR_SIZE in Hm. lia. }
      exists rest'. rewrite <- !app_assoc in E. exact E. }
  destruct HF as (rest' & ->). cbn [bind].
  rewrite (app_assoc (le_bytes 8 pid)), mwrite_at; [|rewrite app_length, !le_bytes_length; reflexivity|rewrite le_bytes_length; exact Hx3].
  cbn [bind].
  pose proof (mread_at 0 (RR_SIZE + length (filter usable l) * ADDR_SIZE) [] (resolve_payload pid remote l) rest' eq_refl) as E.
  cbn [app] in E. unfold resolve_payload in E at 2. rewrite <- !app_assoc in E. rewrite <- app_assoc. rewrite E; [reflexivity|].
  unfold resolve_payload. rewrite !app_length, !le_bytes_length, concat_length by exact Hl. reflexivity.
Qed.

Lemma read_addrs_ok : forall l p s, Forall entry_ok l ->
  read_addrs (length (filter usable l)) (length p) (p ++ concat (map slot (filter usable l)) ++ s) = Ok (map means (filter usable l)).
Proof.
  induction l as [|raw l IH]; intros p s Hl; [reflexivity|]. inversion_clear Hl as [|? ? (Hw & H2) Hl']. cbn [filter].
  destruct (usable raw) eqn:Eu; [|apply IH; exact Hl'].
  assert (HL : (length raw <= 28)%nat) by (unfold usable in Eu; lia).
  cbn [length read_addrs map concat]. rewrite <- app_assoc.
  rewrite mread_at by (try reflexivity; rewrite slot_length by assumption; reflexivity). cbn [bind].
  rewrite app_assoc. replace (length p + ADDR_SIZE)%nat with (length (p ++ slot raw)) by (rewrite app_length, slot_length by assumption; reflexivity).
  rewrite IH by exact Hl'. cbn [bind]. rewrite addr_of_slot by assumption. reflexivity.
Qed.

Lemma le8 : forall v, v < 2 ^ 64 -> le_val (le_bytes 8 v) = v.
Proof. intros v H. rewrite le_val_le_bytes. apply N.mod_small. exact H. Qed.

Lemma filter_len : forall {A} (f : A -> bool) l, (length (filter f l) <= length l)%nat.
Proof. induction l as [|x l IH]; [apply le_n|]. cbn. destruct (f x); cbn [length]; lia. Qed.

Lemma decode_resolve_ok : forall pid remote l, pid < 2 ^ 64 -> remote < 2 ^ 64 -> Forall entry_ok l -> N.of_nat (24 + length l * 28) < 2 ^ 64 ->
  decode_resolve (resolve_payload pid remote l) = Ok (CResolve pid remote (map means (filter usable l))).
Proof.
  intros pid remote l Hp Hr Hl Hn. unfold decode_resolve.
  assert (HL : length (resolve_payload pid remote l) = (24 + length (filter usable l) * 28)%nat).
  { unfold resolve_payload. rewrite !app_length, !le_bytes_length, concat_length by exact Hl. lia. }
  pose proof (filter_len usable l) as Hf.
  remember (length (resolve_payload pid remote l)) as L eqn:EL. unfold resolve_payload. clear EL.
  pose proof (mread_at 0 8 [] (le_bytes 8 pid)) as E1. cbn [app] in E1. rewrite E1 by (rewrite ?le_bytes_length; reflexivity). cbn [bind].
  rewrite mread_at by (rewrite ?le_bytes_length; reflexivity). cbn [bind].
  rewrite (app_assoc (le_bytes 8 pid)), mread_at by (rewrite ?app_length, ?le_bytes_length; reflexivity). cbn [bind].
  rewrite (le8 (N.of_nat _)) by lia. rewrite Nat2N.id.
  replace (N.of_nat L <? _) with false by lia.
  pose proof (read_addrs_ok l ((le_bytes 8 pid ++ le_bytes 8 remote) ++ le_bytes 8 (N.of_nat (length (filter usable l)))) [] Hl) as E.
  rewrite !app_length, !le_bytes_length in E. change (8 + 8 + 8)%nat with RR_SIZE in E.
  rewrite app_nil_r in E. rewrite <- !app_assoc in E. rewrite <- !app_assoc.
  rewrite E. cbn [bind]. rewrite !le8 by assumption. reflexivity.
Qed.

(** *** The verifier thread *)
Definition verify_payload (ok : bool) (pid sock : N) (local remote : saddr) (data : bytes) : bytes :=
  [if ok then 1 else 0] ++ repeat 0 7 ++ le_bytes 8 pid ++ le_bytes 8 sock ++ addr_bytes local ++ addr_bytes remote ++ data.

Lemma mwrite_in : forall off p x d s m m', off = length p -> length x = length d -> m = p ++ x ++ s -> m' = p ++ d ++ s -> mwrite off d m = Ok m'.
Proof. intros off p x d s m m' H1 H2 -> ->. apply mwrite_at; assumption. Qed.
Lemma mread_in : forall off n p x s m, off = length p -> n = length x -> m = p ++ x ++ s -> mread off n m = Ok x.
Proof. intros off n p x s m H1 H2 ->. apply mread_at; assumption. Qed.

Lemma verify_arg_ok : forall pid sock local remote data, swf local -> swf remote ->
  verify_arg pid sock local remote data = Ok (repeat 0 8 ++ le_bytes 8 pid ++ le_bytes 8 sock ++ addr_bytes local ++ addr_bytes remote ++ data).
Proof.
  intros pid sock local remote data Hl Hr. unfold verify_arg.
  pose proof (addr_bytes_length local Hl) as HL. pose proof (addr_bytes_length remote Hr) as HR.
  pose proof (le_bytes_length 8 pid) as HP. pose proof (le_bytes_length 8 sock) as HS.
  assert (E0 : repeat 0 (VR_SIZE + length data) = repeat 0 8 ++ repeat 0 8 ++ repeat 0 8 ++ repeat 0 28 ++ repeat 0 28 ++ repeat 0 (length data)).
  { rewrite <- !repeat_app. reflexivity. }
  rewrite E0. clear E0.
  erewrite (mwrite_in 8 (repeat 0 8) (repeat 0 8)) by (rewrite ?repeat_length; try reflexivity; auto). cbn [bind].
  erewrite (mwrite_in 16 (repeat 0 8 ++ le_bytes 8 pid) (repeat 0 8)); cycle 1.
  { rewrite app_length, repeat_length, !le_bytes_length. reflexivity. } { rewrite repeat_length, ?le_bytes_length, ?addr_bytes_length by assumption. reflexivity. } { rewrite <- !app_assoc. reflexivity. } { reflexivity. }
  cbn [bind].
  erewrite (mwrite_in 24 (repeat 0 8 ++ le_bytes 8 pid ++ le_bytes 8 sock) (repeat 0 28)); cycle 1.
  { rewrite !app_length, repeat_length, !le_bytes_length. reflexivity. } { rewrite repeat_length, ?le_bytes_length, ?addr_bytes_length by assumption. reflexivity. } { rewrite <- !app_assoc. reflexivity. } { reflexivity. }
  cbn [bind].
  erewrite (mwrite_in 52 (repeat 0 8 ++ le_bytes 8 pid ++ le_bytes 8 sock ++ addr_bytes local) (repeat 0 28)); cycle 1.
  { rewrite !app_length, repeat_length, !le_bytes_length, !addr_bytes_length by assumption. reflexivity. } { rewrite repeat_length, ?le_bytes_length, ?addr_bytes_length by assumption. reflexivity. } { rewrite <- !app_assoc. reflexivity. } { reflexivity. }
  cbn [bind].
  apply (mwrite_in 80 (repeat 0 8 ++ le_bytes 8 pid ++ le_bytes 8 sock ++ addr_bytes local ++ addr_bytes remote) (repeat 0 (length data)) data []).
  { rewrite !app_length, repeat_length, !le_bytes_length, !addr_bytes_length by assumption. reflexivity. } { apply repeat_length. }
  { rewrite app_nil_r, <- !app_assoc. reflexivity. } { rewrite app_nil_r, <- !app_assoc. reflexivity. }
Qed.

Lemma verify_result_ok : forall pid sock local remote data ok, swf local -> swf remote ->
  verify_result (repeat 0 8 ++ le_bytes 8 pid ++ le_bytes 8 sock ++ addr_bytes local ++ addr_bytes remote ++ data) ok =
  Ok (datagram VERIFY_RETURN (verify_payload ok pid sock local remote data)).
Proof.
  intros pid sock local remote data ok Hl Hr. unfold verify_result.
  erewrite (mwrite_in 0 [] [0]); [|reflexivity|reflexivity|reflexivity|reflexivity]. reflexivity.
Qed.

Lemma decode_verify_ok : forall ok pid sock local remote data, job_ok (JVerify pid sock local remote data) ->
  decode_verify (verify_payload ok pid sock local remote data) = Ok (CVerify ok pid sock local remote data).
Proof.
  intros ok pid sock local remote data (Hp & Hs & Hl & Hr & Hf & Hd & Hn). unfold decode_verify.
  pose proof (addr_bytes_length local Hl) as HL. pose proof (addr_bytes_length remote Hr) as HR.
  pose proof (le_bytes_length 8 pid) as HP. pose proof (le_bytes_length 8 sock) as HS.
  assert (HV : length (verify_payload ok pid sock local remote data) = (80 + length data)%nat).
  { unfold verify_payload. rewrite !app_length, repeat_length, !le_bytes_length, !addr_bytes_length by assumption. cbn [length]. lia. }
  rewrite HV. clear HV. unfold verify_payload.
  erewrite (mread_in 0 1 [] [if ok then 1 else 0]); [|reflexivity|reflexivity|reflexivity]. cbn [bind].
  erewrite (mread_in 8 8 ([if ok then 1 else 0] ++ repeat 0 7) (le_bytes 8 pid)); [|reflexivity|auto|rewrite <- app_assoc; reflexivity]. cbn [bind].
  erewrite (mread_in 16 8 ([if ok then 1 else 0] ++ repeat 0 7 ++ le_bytes 8 pid) (le_bytes 8 sock)); cycle 1.
  { rewrite !app_length, repeat_length, !le_bytes_length. reflexivity. } { auto. } { rewrite <- !app_assoc. reflexivity. }
  cbn [bind].
  erewrite (mread_in 24 ADDR_SIZE ([if ok then 1 else 0] ++ repeat 0 7 ++ le_bytes 8 pid ++ le_bytes 8 sock) (addr_bytes local)); cycle 1.
  { rewrite !app_length, repeat_length, !le_bytes_length. reflexivity. } { auto. } { rewrite <- !app_assoc. reflexivity. }
  cbn [bind].
  erewrite (mread_in 52 ADDR_SIZE ([if ok then 1 else 0] ++ repeat 0 7 ++ le_bytes 8 pid ++ le_bytes 8 sock ++ addr_bytes local) (addr_bytes remote)); cycle 1.
  { rewrite !app_length, repeat_length, !le_bytes_length, !addr_bytes_length by assumption. reflexivity. } { auto. } { rewrite <- !app_assoc. reflexivity. }
  cbn [bind].
  erewrite (mread_in 80 (80 + length data - 80) ([if ok then 1 else 0] ++ repeat 0 7 ++ le_bytes 8 pid ++ le_bytes 8 sock ++ addr_bytes local ++ addr_bytes remote) data []); cycle 1.
  { rewrite !app_length, repeat_length, !le_bytes_length, !addr_bytes_length by assumption. reflexivity. } { lia. } { rewrite app_nil_r, <- !app_assoc. reflexivity. }
  cbn [bind]. rewrite !le8 by assumption.
  rewrite !addr_of_bytes by (try assumption; intros f Ef; apply (fun H => Hf _ f H Ef); auto).
  destruct ok; reflexivity.
Qed.

(** *** Datagrams *)
Definition hdr_len (d : bytes) : N := le_val (firstn 8 (skipn 8 (firstn 16 d))).
Definition carries (d : bytes) (c : call) : Prop := (16 <= length d)%nat /\ receive (hdr_len d) d = Ok c.

Lemma datagram_hdr : forall type data, mread 0 HDR_SIZE (datagram type data) = Ok (le_bytes 4 type ++ repeat 0 4 ++ le_bytes 8 (N.of_nat (length data))).
Proof.
  intros type data. apply (mread_in _ _ [] _ data); [reflexivity| |].
  - rewrite !app_length, !le_bytes_length. reflexivity.
  - unfold datagram. cbn [app]. rewrite <- !app_assoc. reflexivity.
Qed.
Lemma mread_firstn : forall n m x, mread 0 n m = Ok x -> x = firstn n m /\ (n <= length m)%nat.
Proof. intros n m x H. unfold mread in H. destruct (Nat.leb _ _) eqn:E; [|discriminate]. injection H as <-. split; [reflexivity|lia]. Qed.

Lemma datagram_receive : forall type data, type < 2 ^ 32 -> N.of_nat (length data) < 2 ^ 64 ->
  (16 <= length (datagram type data))%nat /\
  receive (hdr_len (datagram type data)) (datagram type data) =
    (if type =? NOP then Ok CNop else if type =? RESOLVE_RETURN then decode_resolve data
     else if type =? VERIFY_RETURN then decode_verify data else Bug).
Proof.
  intros type data Ht Hn. pose proof (datagram_hdr type data) as HH. destruct (mread_firstn _ _ _ HH) as (H1 & H2).
  split; [exact H2|]. unfold receive. rewrite HH. cbn [bind].
  assert (HL : hdr_len (datagram type data) = N.of_nat (length data)).
  { unfold hdr_len. change 16%nat with HDR_SIZE. rewrite <- H1.
    rewrite app_assoc, skipn_app, skipn_all2 by (rewrite app_length, le_bytes_length; cbn [length repeat]; lia).
    rewrite app_length, le_bytes_length. cbn [length repeat Nat.add Nat.sub app skipn].
    rewrite firstn_all2 by (rewrite le_bytes_length; lia). apply le8. exact Hn. }
  rewrite HL.
  replace (firstn _ (skipn HDR_SIZE (datagram type data))) with data.
  2:{ unfold datagram at 2. rewrite !app_assoc. rewrite skipn_app, skipn_all2 by (rewrite !app_length, !le_bytes_length; cbn [length repeat]; unfold HDR_SIZE; lia).
      rewrite !app_length, !le_bytes_length. cbn [length repeat Nat.add Nat.sub app skipn HDR_SIZE].
      rewrite firstn_all2; [reflexivity|]. unfold datagram. rewrite !app_length. lia. }
  rewrite firstn_app, firstn_all2, le_bytes_length by (rewrite le_bytes_length; lia). cbn [Nat.sub firstn].
  rewrite app_nil_r, le_val_le_bytes, N.mod_small by exact Ht. reflexivity.
Qed.

Lemma nop_carries : carries (datagram NOP []) CNop.
Proof. apply (datagram_receive NOP []); reflexivity. Qed.

Definition thread_of (j : job) (t : thread) : Prop := prepare j = Ok t.

Lemma prepare_ok : forall j, job_ok j -> exists t, prepare j = Ok t.
Proof.
  intros [pid remote|pid sock local remote data] Hj; [eexists; reflexivity|].
  destruct Hj as (Hp & Hs & Hl & Hr & _). cbn [prepare]. rewrite verify_arg_ok by assumption. eexists. reflexivity.
Qed.

Lemma result_ok : forall j t a r, job_ok j -> thread_of j t -> answer_ok a -> thread_result t a = Some r ->
  exists d c, r = Ok d /\ outcome (Some j) a = [c] /\ carries d c.
Proof.
  intros j t a r Hj Ht Ha Hr. unfold thread_of in Ht.
  destruct j as [pid remote|pid sock local remote data]; cbn [prepare] in Ht.
  - injection Ht as <-. destruct a as [l junk|ok]; [|discriminate]. cbn [thread_result] in Hr. injection Hr as <-.
    destruct Ha as (Hl & Hn). destruct Hj as (Hp & Hm).
    rewrite resolve_result_ok by exact Hl. eexists. eexists. split; [reflexivity|]. split; [reflexivity|].
    destruct (datagram_receive RESOLVE_RETURN (resolve_payload pid remote l)) as (H1 & H2); [reflexivity| |].
    { unfold resolve_payload. rewrite !app_length, !le_bytes_length, concat_length by exact Hl. pose proof (filter_len usable l). lia. }
    split; [exact H1|]. rewrite H2. cbn [N.eqb NOP RESOLVE_RETURN Pos.eqb]. apply decode_resolve_ok; assumption.
  - pose proof Hj as Hj'. destruct Hj as (Hp & Hs & Hl & Hm & _ & _ & Hn). rewrite verify_arg_ok in Ht by assumption. cbn [bind] in Ht. injection Ht as <-.
    destruct a as [l junk|ok]; [discriminate|]. cbn [thread_result] in Hr. injection Hr as <-.
    eexists. eexists. split; [apply verify_result_ok; assumption|]. split; [reflexivity|].
    destruct (datagram_receive VERIFY_RETURN (verify_payload ok pid sock local remote data)) as (H1 & H2); [reflexivity| |].
    { unfold verify_payload. rewrite !app_length, repeat_length, !le_bytes_length, !addr_bytes_length by assumption. cbn [length]. lia. }
    split; [exact H1|]. rewrite H2. cbn [N.eqb NOP RESOLVE_RETURN VERIFY_RETURN Pos.eqb]. apply decode_verify_ok. exact Hj'.
Qed.
