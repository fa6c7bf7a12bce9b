(** All addresses of a peer have their turns *)
From Verif Require Import Base BufferModel NodeModel NodeSpec NodeSteps NodeWf NodeInv NodeProofs RetrySpec RetryTurn2.
From Coq Require Import Lia.

Section Round.
Variable L : list nat.
Definition slots (i : nat) : nat := Nat.max 1 (nth i L 0).
Fixpoint before (i : nat) : nat := match i with O => 0 | S i => before i + slots i end.
Definition index (x : nat * nat) : nat := before (fst x) + snd x.
Definition valid (x : nat * nat) : Prop := fst x < length L /\ snd x < slots (fst x).
Definition flw (x : nat * nat) : nat * nat :=
  let (i, c) := x in if Nat.ltb (S c) (nth i L 0) then (i, S c) else if Nat.ltb (S i) (length L) then (S i, 0) else (0, 0).
Definition total : nat := before (length L).

Lemma before_mono : forall i j, i <= j -> before i <= before j.
Proof. intros i j H. induction H as [|j H IH]; [lia|]. cbn [before]. lia. Qed.
Lemma valid_index : forall x, valid x -> index x < total.
Proof. intros [i c] [H1 H2]. unfold index, total. cbn [fst snd] in *. pose proof (before_mono (S i) (length L) H1) as X. cbn [before] in X. lia. Qed.
Lemma index_inj : forall x y, valid x -> valid y -> index x = index y -> x = y.
Proof.
  intros [i c] [j d] [A1 A2] [B1 B2] E. unfold index in E. cbn [fst snd] in *. destruct (Nat.lt_trichotomy i j) as [H | [H | H]].
  - pose proof (before_mono (S i) j H) as X. cbn [before] in X. lia.
  - subst j. f_equal. lia.
  - pose proof (before_mono (S j) i H) as X. cbn [before] in X. lia.
Qed.
Lemma flw_valid : forall x, L <> [] -> valid (flw x).
Proof.
  intros [i c] HL. unfold flw. assert (0 < length L) by (destruct L; [contradiction | cbn; lia]). destruct (Nat.ltb_spec (S c) (nth i L 0)) as [H1|H1].
  - split; cbn [fst snd]; [|unfold slots; lia]. destruct (Nat.lt_ge_cases i (length L)) as [X|X]; [exact X|]. rewrite nth_overflow in H1 by exact X. lia.
  - destruct (Nat.ltb_spec (S i) (length L)); split; cbn [fst snd]; unfold slots; lia.
Qed.
Lemma flw_index : forall x, valid x -> index (flw x) = if Nat.eqb (S (index x)) total then 0 else S (index x).
Proof.
  intros [i c] V. pose proof (valid_index _ V) as Hx. destruct V as [V1 V2]. unfold flw, index in *. cbn [fst snd] in *. unfold slots in V2. destruct (Nat.ltb_spec (S c) (nth i L 0)) as [H1|H1]; cbn [fst snd].
  - assert (X : before i + S (S c) <= total). { pose proof (before_mono (S i) (length L) V1) as X. cbn [before] in X. unfold slots in X. fold total in X. lia. }
    destruct (Nat.eqb_spec (S (before i + c)) total); lia.
  - assert (Es : S c = slots i) by (unfold slots; lia). destruct (Nat.ltb_spec (S i) (length L)) as [H2|H2]; cbn [fst snd].
    + assert (X : before (S i) < total). { pose proof (before_mono (S (S i)) (length L) H2) as X. cbn [before] in *. fold total in X. unfold slots in *. lia. }
      cbn [before] in *. destruct (Nat.eqb_spec (S (before i + c)) total); lia.
    + assert (X : before (S i) = total) by (unfold total; f_equal; lia). cbn [before] in X. destruct (Nat.eqb_spec (S (before i + c)) total); [reflexivity | lia].
Qed.

Definition chain (l : list (nat * nat)) : Prop := forall k x y, nth_error l k = Some x -> nth_error l (S k) = Some y -> y = flw x.
Lemma chain_snoc : forall l x, chain l -> (forall y, nth_error l (pred (length l)) = Some y -> x = flw y) -> chain (l ++ [x]).
Proof.
  intros l x H1 H2 k a b Ha Hb. destruct (Nat.lt_trichotomy (S k) (length l)) as [E | [E | E]].
  - rewrite nth_error_app1 in Ha, Hb by lia. exact (H1 k a b Ha Hb).
  - rewrite nth_error_app1 in Ha by lia. rewrite nth_error_app2 in Hb by lia. replace (S k - length l) with 0 in Hb by lia. injection Hb as <-. apply H2. replace (pred (length l)) with k by lia. exact Ha.
  - rewrite nth_error_app2 in Hb by lia. destruct (S k - length l) as [|z] eqn:Ez; [lia|]. destruct z; discriminate.
Qed.
Lemma chain_index : forall l v k, chain l -> L <> [] -> nth_error l 1 = Some v -> valid v -> S k < length l -> index v + k < 2 * total ->
  exists y, nth_error l (S k) = Some y /\ valid y /\ index y = if Nat.ltb (index v + k) total then index v + k else index v + k - total.
Proof.
  intros l v k Hc HL Hv Vv. induction k as [|k IH]; intros Hl Ht.
  - exists v. split; [exact Hv|]. split; [exact Vv|]. rewrite Nat.add_0_r. pose proof (valid_index _ Vv). destruct (Nat.ltb_spec (index v) total); lia.
  - destruct IH as (y & Hy & Vy & Ey); [lia | lia|]. destruct (nth_error l (S (S k))) as [z|] eqn:Ez; [|apply nth_error_None in Ez; lia].
    exists z. split; [reflexivity|]. rewrite (Hc (S k) y z Hy Ez). split; [apply flw_valid; exact HL|]. rewrite (flw_index y Vy), Ey. pose proof (valid_index _ Vy).
    destruct (Nat.ltb_spec (index v + k) total); destruct (Nat.ltb_spec (index v + S k) total);
      match goal with |- (if Nat.eqb ?a ?b then _ else _) = _ => destruct (Nat.eqb_spec a b) end; lia.
Qed.
Lemma chain_all : forall l y, chain l -> L <> [] -> total < length l -> valid y -> In y l.
Proof.
  intros l y Hc HL Hl Vy. pose proof (valid_index _ Vy) as Hy. destruct (nth_error l 0) as [u|] eqn:E0; [|apply nth_error_None in E0; lia].
  destruct (nth_error l 1) as [v|] eqn:E1; [|apply nth_error_None in E1; lia]. assert (Vv : valid v) by (rewrite (Hc 0 u v E0 E1); apply flw_valid; exact HL). pose proof (valid_index _ Vv) as Hv.
  destruct (Nat.le_gt_cases (index v) (index y)) as [Hle|Hgt].
  - destruct (chain_index l v (index y - index v) Hc HL E1 Vv) as (z & Hz & Vz & Ez); [lia | lia|]. assert (z = y) as <-.
    { apply index_inj; [exact Vz | exact Vy|]. rewrite Ez. destruct (Nat.ltb_spec (index v + (index y - index v)) total); lia. }
    eapply nth_error_In. exact Hz.
  - destruct (chain_index l v (total - index v + index y) Hc HL E1 Vv) as (z & Hz & Vz & Ez); [lia | lia|]. assert (z = y) as <-.
    { apply index_inj; [exact Vz | exact Vy|]. rewrite Ez. destruct (Nat.ltb_spec (index v + (total - index v + index y)) total); lia. }
    eapply nth_error_In. exact Hz.
Qed.
End Round.

(** ** Peers *)
Definition lens (p : peer) : list nat := map (@length addr) (addresses p).
Lemma nth_lens : forall p i, nth i (lens p) 0 = length (nth i (addresses p) []).
Proof. intros p i. unfold lens. change 0 with (length (@nil addr)). apply map_nth. Qed.
Lemma length_lens : forall p, length (lens p) = length (p_remotes p).
Proof. intros p. unfold lens, addresses. rewrite !map_length. reflexivity. Qed.
Lemma following_flw : forall p x, following (addresses p) x = flw (lens p) x.
Proof. intros p [i c]. unfold following, flw. rewrite nth_lens. unfold lens. rewrite map_length. reflexivity. Qed.
Lemma positions_valid : forall p x, In x (positions p) <-> valid (lens p) x.
Proof.
  intros p [i c]. unfold positions, valid, slots. cbn [fst snd]. rewrite nth_lens, length_lens, in_flat_map. split.
  - intros (j & Hj & H). apply in_map_iff in H. destruct H as (d & E & Hd). injection E as <- <-. apply in_seq in Hj. apply in_seq in Hd. lia.
  - intros [H1 H2]. exists i. split; [apply in_seq; lia|]. apply in_map. apply in_seq. lia.
Qed.
Lemma positions_total : forall p, length (positions p) = total (lens p).
Proof.
  intros p. unfold positions, total. rewrite length_lens. generalize (length (p_remotes p)) as k. induction k as [|k IH]; [reflexivity|].
  rewrite seq_S, flat_map_app, app_length, IH. cbn [flat_map before Nat.add]. rewrite app_nil_r, map_length, seq_length. unfold slots. rewrite nth_lens. reflexivity.
Qed.

Lemma reachable_handles : forall P n dt ev n', reachable P n -> handles P n dt ev n' -> reachable P n'.
Proof.
  intros P n dt ev n' R H. apply (later_reachable P n); [exact R|]. exists [(dt, ev)]. unfold run. cbn [each]. unfold handles in H. unfold bnd. rewrite H. reflexivity.
Qed.
Lemma journey_chain : forall P pid n l n', reachable P n -> journey P pid n l n' ->
  reachable P n' /\ forall p, wants n' pid p -> chain (lens p) l /\ forall y, nth_error l (pred (length l)) = Some y -> position p = Some (flw (lens p) y).
Proof.
  intros P pid n l n' R J. 
  assert (Huniq : forall n p q, reachable P n -> wants n pid p -> wants n pid q -> p = q).
  { intros m p q Rm (A1 & A2 & _) (B1 & B2 & _). apply (ids_inj m p q (wf_ids _ (i_wf _ _ (i_0 _ _ (reachable_inv _ _ Rm)))) A1 B1). congruence. }
  induction J as [n | n l n1 dt ev n' p p' J IH H W W' S | n l n1 dt n' p p' x J IH W T F Hx W'].
  - split; [exact R|]. intros p W. split; [intros k x y Hk; destruct k; discriminate | intros y Hy; discriminate].
  - destruct (IH R) as [R1 IH1]. assert (R' : reachable P n') by (eapply reachable_handles; [exact R1 | exact H]). split; [exact R'|]. intros q Wq. rewrite (Huniq n' q p' R' Wq W'). clear q Wq.
    destruct (IH1 p W) as [C1 C2]. destruct S as [S1 S2]. fold (lens p') in S2. fold (lens p) in S2. rewrite S2, S1. split; assumption.
  - destruct (IH R) as [R1 IH1]. assert (R' : reachable P n') by (eapply reachable_handles; [exact R1 | exact (proj1 T)]). split; [exact R'|]. intros q Wq. rewrite (Huniq n' q p' R' Wq W'). clear q Wq.
    destruct (IH1 p W) as [C1 C2]. destruct W as (A1 & A2 & A3). destruct (turn_done _ _ _ _ _ R1 A1 A3 T) as (p2 & lo & Hf & _ & _ & Had & Hc & D).
    apply find_id_in in Hf. destruct Hf as [Hf1 Hf2]. destruct W' as (B1 & B2 & B3).
    assert (p2 = p') as -> by (apply (ids_inj n' p2 p' (wf_ids _ (i_wf _ _ (i_0 _ _ (reachable_inv _ _ R')))) Hf1 B1); congruence).
    assert (El : lens p' = lens p) by (unfold lens; rewrite Had; reflexivity). rewrite El. split.
    + apply chain_snoc; [exact C1|]. intros y Hy. specialize (C2 y Hy). congruence.
    + intros y Hy. rewrite app_length in Hy. cbn [length] in Hy. rewrite nth_error_app2 in Hy by lia. replace (pred (length l + 1) - length l) with 0 in Hy by lia. injection Hy as <-.
      destruct D as [(D1 & _) | [(_ & D2 & _) | (_ & _ & y & l1 & l2 & D3 & D4 & _)]]; [contradiction | unfold position in Hx; rewrite D2 in Hx; discriminate|].
      rewrite Hx in D3. injection D3 as <-. rewrite D4. f_equal. apply following_flw.
Qed.
Lemma journey_round : forall P pid n l n' p x, reachable P n -> journey P pid n l n' -> wants n' pid p -> length (positions p) < length l -> In x (positions p) -> In x l.
Proof.
  intros P pid n l n' p x R J W Hl Hx. destruct (journey_chain _ _ _ _ _ R J) as [_ C]. destruct (C p W) as [C1 _]. apply (chain_all (lens p)); [exact C1 | | rewrite <- positions_total; exact Hl | apply positions_valid; exact Hx].
  intros E. destruct W as (_ & _ & _ & _ & W). apply W. apply length_zero_iff_nil. rewrite <- length_lens, E. reflexivity.
Qed.
