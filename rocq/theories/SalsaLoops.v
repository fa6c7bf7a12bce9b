(** The two main loops compute the rounds *)
From Verif Require Import Base SalsaModel SalsaSpec SalsaSym SalsaSound SalsaSeg SalsaRun.
Local Open Scope N_scope.

Lemma iterate_r {A} n (f : A -> A) y : iterate (S n) f y = f (iterate n f y).
Proof. revert y. induction n as [|n IH]; intros y; [reflexivity|]. cbn [iterate] in *. now rewrite IH. Qed.
Lemma iterate_add {A} a b (f : A -> A) y : iterate (a + b) f y = iterate b f (iterate a f y).
Proof. revert y. induction a as [|a IH]; intros y; cbn [iterate Nat.add]; [reflexivity|]. apply IH. Qed.
Lemma iterate_l {A} n (f : A -> A) y : iterate (S n) f y = iterate n f (f y).
Proof. reflexivity. Qed.
Lemma iterate_1 {A} (f : A -> A) y : iterate 1 f y = f y.
Proof. reflexivity. Qed.
Lemma iterate_2 {A} (f : A -> A) y : iterate 2 f y = f (f y).
Proof. reflexivity. Qed.
Lemma two_rounds y : doubleround (doubleround y) = fold_left (fun y t => mix t y) (double ++ double) y.
Proof. unfold doubleround. now rewrite fold_left_app. Qed.
Lemma xops_movx a d l y : xops (MOVX a d :: l) y = xops l (fun j => if Nat.eqb j d then y a else y j).
Proof. reflexivity. Qed.
Lemma hasq_lane d r p q l : hasq d r p q -> has d r (lane p l) (lane q l).
Proof.
  destruct p, q; cbn. intros (A & B & C & D). destruct (l =? 0); [exact A|]. destruct (l =? 1); [exact B|]. destruct (l =? 2); [exact C|exact D].
Qed.
Lemma hasq_ok d r p q : hasq d r p q -> qok q.
Proof. destruct p, q; cbn. unfold has. tauto. Qed.
Lemma rel_map d r y z : rel d r y z -> map r y = z.
Proof. induction 1 as [|i v y z [H1 H2] H IH]; cbn; congruence. Qed.
Lemma combine_eq (y z : list N) : List.length y = List.length z -> forallb (fun p => N.eqb (fst p) (snd p)) (combine y z) = true -> y = z.
Proof.
  revert z. induction y as [|a y IH]; intros [|b z] L H; cbn in *; try discriminate; [reflexivity|]. apply andb_true_iff in H. destruct H as [H1 H2].
  apply N.eqb_eq in H1. f_equal; [exact H1|]. apply IH; [lia|exact H2].
Qed.
Lemma rounds_ok_sound ns S r y z v : rounds_ok ns S y z = true -> J (dg S) r -> rel (dg S) r y v -> List.length y = 16%nat -> forallb good ns = true ->
  List.length z = 16%nat -> (forall i, List.In i z -> i < nx (dg S)) -> map r z = fold_left (fun y t => mix t y) ns v.
Proof.
  intros H HJ HR Hl Hg Hz Hb. unfold rounds_ok in H. destruct (smixes ns y (dg S)) as [[y' d']|] eqn:E; [|discriminate H].
  apply andb_true_iff in H. destruct H as [H1 H2]. apply Nat.eqb_eq in H2.
  destruct (smixes_ok _ _ _ _ _ _ _ HJ HR Hl Hg E) as (r2 & J2 & [X1 X2] & R2). apply combine_eq in H1; [|congruence]. subst y'.
  rewrite <- (rel_map _ _ _ _ R2). apply map_ext_in. intros i Hi. symmetry. apply X2. now apply Hb.
Qed.
Definition lock (P : Prop) : Prop := P.
Lemma good_double : forallb good (double ++ double) = true. Proof. reflexivity. Qed.
Lemma in4 l : l < 4 -> List.In l [0; 1; 2; 3].
Proof. intros H. cbn. lia. Qed.

Definition L1 (y : nat -> quad N) (l : N) : list N := map (fun r => lane (y r) l) order1.
Definition L2 (y : nat -> quad N) : list N := map (fun p => lane (y (fst p)) (snd p)) order2.
Lemma order1_below r : List.In r order1 -> (r < 16)%nat.
Proof. cbn. lia. Qed.
Lemma order2_below p : List.In p order2 -> (fst p < 4)%nat /\ snd p < 4.
Proof.
  intros H. assert (B : forallb (fun p => Nat.ltb (fst p) 4 && (snd p <? 4)) order2 = true) by reflexivity. rewrite forallb_forall in B.
  specialize (B _ H). apply andb_true_iff in B. destruct B as [B1 B2]. apply Nat.ltb_lt in B1. apply N.ltb_lt in B2. auto.
Qed.
Lemma sx0_get n gs i : (i < n)%nat -> getx i (sx (S0 n 0 0 false gs)) = Some (lanes0 i).
Proof.
  intros H. cbn [sx S0]. unfold sx0. assert (G : forall a c, (a <= i < a + c)%nat -> getx i (map (fun i => (i, lanes0 i)) (List.seq a c)) = Some (lanes0 i)).
  { intros a c. revert a. induction c as [|c IH]; intros a Ha; [lia|]. cbn. destruct (Nat.eqb_spec i a) as [->|E]; [reflexivity|]. apply IH. lia. }
  apply G. lia.
Qed.
Lemma getl_0 n gs i l : (i < n)%nat -> l < 4 -> getl (S0 n 0 0 false gs) i l = 120 + 4 * N.of_nat i + l.
Proof.
  intros H Hl. unfold getl. rewrite sx0_get by exact H. unfold lanes0. cbv zeta. unfold lane.
  destruct (N.eqb_spec l 0) as [->|]; [lia|]. destruct (N.eqb_spec l 1) as [->|]; [lia|]. destruct (N.eqb_spec l 2) as [->|]; [lia|].
  replace l with 3 by lia. lia.
Qed.

Section Loops.
Context (size : object -> N) (sp ko no : N) (Hsp : sp mod 16 = 0) (Hst : sp + 480 <= size Stack).
Definition same (a c : N) (k k' : mem) : Prop := forall j, a <= j -> j < a + c -> wd sp k' j = wd sp k j.
(** Nothing but the stack frame changes *)
Definition local (k k' : mem) : Prop := forall o a, (o = Stack -> a < sp \/ sp + 480 <= a) -> k' o a = k o a.
Lemma local_frame ia ca k k' : frame (offf sp ko no ia ca) (winf 0) k k' -> local k k'.
Proof.
  intros F o a H. apply F. intros W. destruct o; try discriminate W; cbn.
  - destruct (H eq_refl); lia.
  - lia.
Qed.
Lemma local_refl k : local k k.
Proof. intros o a _. reflexivity. Qed.
Lemma local_trans a b c : local a b -> local b c -> local a c.
Proof. intros A B o i H. rewrite B by exact H. now apply A. Qed.
Lemma same_refl a c k : same a c k k.
Proof. intros j _ _. reflexivity. Qed.
Lemma same_trans a c k1 k2 k3 : same a c k1 k2 -> same a c k2 k3 -> same a c k1 k3.
Proof. intros A B j H1 H2. rewrite B by assumption. now apply A. Qed.

Lemma loop1_body s : g s RSP = VP Stack sp -> (forall r, (r < 16)%nat -> qok (x s r)) ->
  exists s', seq size c_loop1 s = Some s' /\ local (m s) (m s') /\ same 0 80 (m s) (m s') /\ same 88 32 (m s) (m s') /\
    (forall r, (r < 16)%nat -> qok (x s' r)) /\ (forall l, l < 4 -> L1 (x s') l = doubleround (L1 (x s) l)) /\
    g s' RSP = VP Stack sp /\ g s' RDX = g s RDX /\ g s' RDI = g s RDI /\ g s' RSI = g s RSI.
Proof.
  intros Hg Hx. pose proof loop1_run as F1. pose proof loop1_regs as F2. pose proof loop1_words as F3. assert (F4 : lock _) by exact loop1_defined. assert (F5 : lock _) by exact loop1_rounds.
  set (S1 := r_loop1) in *. clearbody S1.
  assert (Hgs : forall r v, List.In (r, v) ([(RSP, SP Stack 0)] ++ keep [RDX; RDI; RSI]) -> svrel (offf sp ko no 0 0) (g s) (Dag [] Z0) (rho sp ko no s 0 0 []) v (g s r)).
  { intros r v H. cbn [keep map app List.In] in H. destruct H as [H|[H|[H|[H|[]]]]]; injection H as <- <-; cbn [svrel offf]; try reflexivity. now rewrite N.add_0_r. }
  destruct (seg sp ko no size Hsp Hst 0 16 0 0 false _ c_loop1 S1 10 s 0 0 [] F1 (Nat.le_refl 16) (Nat.le_0_l _) (Nat.le_0_l _) Hx (or_intror eq_refl) (or_intror eq_refl) ltac:(discriminate) Hgs)
    as (s' & E & F & _ & _ & C & r' & HR & X).
  pose proof (fun r => C r) as C'. pose proof (C' _ _ (regs_at _ _ _ 0 _ _ F2 eq_refl eq_refl)) as K1. pose proof (C' _ _ (regs_at _ _ _ 1 _ _ F2 eq_refl eq_refl)) as K2.
  pose proof (C' _ _ (regs_at _ _ _ 2 _ _ F2 eq_refl eq_refl)) as K3. pose proof (C' _ _ (regs_at _ _ _ 3 _ _ F2 eq_refl eq_refl)) as K4.
  cbn [regsem offf] in K1, K2, K3, K4.
  exists s'. split; [exact E|]. split; [now apply local_frame with (1 := F)|].
  assert (Wd : forall j, List.In j (List.seq 0 80 ++ List.seq 88 32) -> wd sp (m s') (N.of_nat j) = wd sp (m s) (N.of_nat j)).
  { intros j Hj. pose proof F3 as LW. rewrite map_ext_in_iff in LW. specialize (LW j Hj). cbv beta in LW.
    assert (Hj' : (j < 120)%nat) by (clear - Hj; apply in_app_iff in Hj; rewrite !in_seq in Hj; lia).
    destruct (rM _ _ _ _ _ _ HR _ _ _ LW) as (B1 & B2 & _). unfold load in B2.
    destruct (offf sp ko no 0 0 Stack + 4 * N.of_nat j + 4 <=? size Stack); [|discriminate B2]. injection B2 as B2. unfold wd at 1. cbn [offf] in B2. rewrite B2.
    destruct X as [_ X]. cbn [nx] in X. rewrite X by (clear - Hj'; unfold Z0; lia). apply rho_st. clear - Hj'; lia. }
  split; [intros j J1 J2; rewrite <- (Nnat.N2Nat.id j); apply Wd; apply in_app_iff; left; apply in_seq; clear - J1 J2; lia|].
  split; [intros j J1 J2; rewrite <- (Nnat.N2Nat.id j); apply Wd; apply in_app_iff; right; apply in_seq; clear - J1 J2; lia|].
  pose proof F4 as D. unfold lock in D. rewrite forallb_forall in D.
  split; [|split].
  - intros r Hr. specialize (D r ltac:(apply in_seq; clear - Hr; lia)). destruct (getx r (sx S1)) as [p|] eqn:Ex; [|discriminate D].
    eapply hasq_ok. exact (rX _ _ _ _ _ _ HR _ _ Ex).
  - intros l Hl. pose proof F5 as RO. unfold lock in RO. rewrite forallb_forall in RO. specialize (RO l (in4 l Hl)).
    assert (Q : forall r, List.In r order1 -> has (dg S1) r' (getl S1 r l) (lane (x s' r) l)).
    { intros r Hr. pose proof (order1_below r Hr) as Hr'. specialize (D r ltac:(apply in_seq; clear - Hr'; lia)). unfold getl.
      destruct (getx r (sx S1)) as [p|] eqn:Ex; [|discriminate D]. apply hasq_lane. exact (rX _ _ _ _ _ _ HR _ _ Ex). }
    unfold doubleround. rewrite <- (rounds_ok_sound double S1 r' (lw1 i_loop1 l) (lw1 S1 l) (L1 (x s) l) RO (rJ _ _ _ _ _ _ HR)); try reflexivity.
    + unfold lw1, L1. rewrite map_map. apply map_ext_in. intros r Hr. symmetry. apply (Q r Hr).
    + unfold rel, lw1, L1. assert (B : forall l0, (forall r, List.In r l0 -> (r < 16)%nat) ->
        Forall2 (fun i v => i < nx (dg S1) /\ r' i = v) (map (fun r => getl i_loop1 r l) l0) (map (fun r => lane (x s r) l) l0)).
      { induction l0 as [|r l0 IH]; intros H0; cbn [map]; constructor; [|apply IH; intros; apply H0; now right].
        assert (Hr : (r < 16)%nat) by (apply H0; now left). unfold i_loop1. rewrite getl_0 by assumption. destruct X as [X0 X1]. cbn [nx] in X0, X1. unfold Z0 in X0, X1.
        clear - X0 X1 Hr Hl. split; [lia|]. rewrite X1 by lia. now apply rho_x. }
      apply B. apply order1_below.
    + intros i Hi. unfold lw1 in Hi. apply in_map_iff in Hi. destruct Hi as (r & <- & Hr). apply (Q r Hr).
  - rewrite N.add_0_r in K1. auto.
Qed.

Section Main.
Context (p rest : list instr).
Context (Ap : after Lmainloop1 p = Some (c_loop1 ++ c_again1 ++ rest)).
Lemma loop1 r s : (0 < r)%nat -> 2 * N.of_nat r < W64 -> g s RSP = VP Stack sp -> (forall i, (i < 16)%nat -> qok (x s i)) -> g s RDX = VI (2 * N.of_nat r) ->
  exists s', reach size p (c_loop1 ++ c_again1 ++ rest) s rest s' /\ local (m s) (m s') /\ same 0 80 (m s) (m s') /\ same 88 32 (m s) (m s') /\
    (forall i, (i < 16)%nat -> qok (x s' i)) /\ (forall l, l < 4 -> L1 (x s') l = iterate r doubleround (L1 (x s) l)) /\
    g s' RSP = VP Stack sp /\ g s' RDI = g s RDI /\ g s' RSI = g s RSI.
Proof.
  revert s. induction r as [|r IH]; intros s Hr Hb Hg Hx Hd; [lia|].
  destruct (loop1_body s Hg Hx) as (s1 & E & F & Wa & Wb & Q & L & G1 & G2 & G3 & G4). rewrite Hd in G2.
  set (v := 2 * N.of_nat (S r)) in *.
  set (s2 := set_f (Some (v <? 2)) (Some (v =? 2)) (set_g RDX (VI ((v + W64 - 2) mod W64)) s1)).
  assert (E2 : reach size p (c_loop1 ++ c_again1 ++ rest) s (JA Lmainloop1 :: rest) s2).
  { eapply reach_trans; [now apply reach_seq with (1 := E)|]. unfold c_again1. cbn [app]. apply reach_exec. cbn. unfold int. now rewrite G2. }
  destruct r as [|r].
  - exists s2. split; [|repeat split; auto; intros l Hl; rewrite iterate_1; exact (L l Hl)].
    eapply reach_trans; [exact E2|]. apply reach_next with Lmainloop1. reflexivity.
  - destruct (IH s2) as (s' & R' & F' & Wa' & Wb' & Q' & L' & G1' & G3' & G4'); auto; try lia.
    { cbn. f_equal. unfold v, W64 in *. replace (2 * N.of_nat (S (S r)) + 2 ^ 64 - 2) with (2 * N.of_nat (S r) + 1 * 2 ^ 64) by lia.
      rewrite N.mod_add by discriminate. apply N.mod_small. lia. }
    exists s'. split; [|split; [|split; [|split; [|split; [exact Q'|split; [|split; [exact G1'|split]]]]]]].
    + eapply reach_trans; [exact E2|]. eapply reach_trans; [|exact R']. apply reach_jump with Lmainloop1; [|exact Ap]. cbn.
      replace (v <? 2) with false by lia. now replace (v =? 2) with false by lia.
    + eapply local_trans; [exact F|exact F'].
    + eapply same_trans; [exact Wa|exact Wa'].
    + eapply same_trans; [exact Wb|exact Wb'].
    + intros l Hl. rewrite L' by exact Hl. change (x s2) with (x s1). rewrite L by exact Hl. symmetry. apply iterate_l.
    + rewrite G3'. exact G3.
    + rewrite G4'. exact G4.
Qed.
End Main.

Lemma loop2_body s y : (forall r, (r < 4)%nat -> qok (x s r)) -> x s 4%nat = x s 1%nat -> xops (c_loop2a ++ c_loop2b) (x s) = Some y ->
  (forall r, (r < 4)%nat -> qok (y r)) /\ y 4%nat = y 1%nat /\ L2 y = doubleround (doubleround (L2 (x s))).
Proof.
  intros Hx H41 Hy. pose proof loop2_run as F1. pose proof loop2_copy as F2. assert (F4 : lock _) by exact loop2_defined. assert (F5 : lock _) by exact loop2_rounds.
  set (S1 := r_loop2) in *. clearbody S1.
  destruct (seg sp ko no size Hsp Hst 0 4 0 0 false _ c_loop2 S1 10 s 0 0 [] F1 ltac:(repeat constructor) (Nat.le_0_l _) (Nat.le_0_l _) Hx (or_intror eq_refl) (or_intror eq_refl) ltac:(discriminate) ltac:(intros r v []))
    as (s' & E & _ & _ & _ & _ & r' & HR & X).
  set (y1 := fun j => if Nat.eqb j 4 then x s 1%nat else x s j). set (y0 := fun j => if Nat.eqb j 7 then y1 0%nat else y1 j).
  destruct (xops_some _ loop2_xops y0) as (y' & Hy').
  assert (Ec : seq size c_loop2 s = Some (with_xs y' s)).
  { apply xops_seq. unfold c_loop2. rewrite !xops_movx. exact Hy'. }
  rewrite Ec in E. injection E as <-.
  assert (EQ : forall j, j <> 7%nat -> y j = y' j).
  { apply (xops_ext _ (x s) y0 y y' loop2_no7); [|exact Hy|exact Hy']. intros j Hj. unfold y0, y1. destruct (Nat.eqb_spec j 7); [now elim Hj|].
    destruct (Nat.eqb_spec j 4) as [->|]; [exact H41|reflexivity]. }
  pose proof F4 as D. unfold lock in D. rewrite forallb_forall in D.
  assert (Q : forall r, (r < 5)%nat -> exists p, getx r (sx S1) = Some p /\ hasq (dg S1) r' p (y r)).
  { intros r Hr. specialize (D r ltac:(apply in_seq; lia)). destruct (getx r (sx S1)) as [p|] eqn:Ex; [|discriminate D]. exists p. split; [reflexivity|].
    rewrite EQ by lia. exact (rX _ _ _ _ _ _ HR _ _ Ex). }
  split; [|split].
  - intros r Hr. destruct (Q r ltac:(lia)) as (p & _ & H). now apply hasq_ok with (1 := H).
  - destruct (Q 4%nat ltac:(lia)) as (p4 & G4 & H4). destruct (Q 1%nat ltac:(lia)) as (p1 & G1 & H1). rewrite F2, G1 in G4. injection G4 as <-.
    destruct p1, (y 4%nat), (y 1%nat). cbn in H1, H4. unfold has in H1, H4. intuition congruence.
  - assert (QL : forall p, List.In p order2 -> has (dg S1) r' (getl S1 (fst p) (snd p)) (lane (y (fst p)) (snd p))).
    { intros p Hp. destruct (order2_below p Hp) as [B1 B2]. destruct (Q (fst p) ltac:(lia)) as (q & G & H). unfold getl. rewrite G. now apply hasq_lane. }
    rewrite two_rounds.
    rewrite <- (rounds_ok_sound (double ++ double) S1 r' (lw2 i_loop2) (lw2 S1) (L2 (x s)) F5 (rJ _ _ _ _ _ _ HR)); try reflexivity.
    + unfold lw2, L2. rewrite map_map. apply map_ext_in. intros r Hr. symmetry. apply (QL r Hr).
    + unfold rel, lw2, L2. assert (B : forall l0, (forall p, List.In p l0 -> (fst p < 4)%nat /\ snd p < 4) ->
        Forall2 (fun i v => i < nx (dg S1) /\ r' i = v) (map (fun p => getl i_loop2 (fst p) (snd p)) l0) (map (fun p => lane (x s (fst p)) (snd p)) l0)).
      { induction l0 as [|[r l] l0 IH]; intros H0; cbn [map]; constructor; [|apply IH; intros; apply H0; now right].
        destruct (H0 (r, l) ltac:(now left)) as [Hr Hl]. cbn [fst snd] in *. unfold i_loop2. rewrite getl_0 by assumption.
        destruct X as [X0 X1]. cbn [nx] in X0, X1. unfold Z0 in X0, X1. clear - X0 X1 Hr Hl. split; [lia|]. rewrite X1 by lia. apply rho_x; lia. }
      apply B. apply order2_below.
    + intros i Hi. unfold lw2 in Hi. apply in_map_iff in Hi. destruct Hi as (r & <- & Hr). apply (QL r Hr).
Qed.

Section Main2.
Context (p rest : list instr).
Definition pc_loop2 : list instr := c_loop2a ++ c_sub4 ++ c_loop2b ++ c_again2 ++ rest.
Context (Ap : after Lmainloop2 p = Some pc_loop2).
Lemma loop2 r s : (0 < r)%nat -> 4 * N.of_nat r < W64 -> (forall i, (i < 4)%nat -> qok (x s i)) -> x s 4%nat = x s 1%nat -> g s RCX = VI (4 * N.of_nat r) ->
  exists s', reach size p pc_loop2 s rest s' /\ m s' = m s /\ (forall i, (i < 4)%nat -> qok (x s' i)) /\
    L2 (x s') = iterate (2 * r) doubleround (L2 (x s)) /\ (forall i, i <> RCX -> g s' i = g s i).
Proof.
  revert s. induction r as [|r IH]; intros s Hr Hb Hx H41 Hd; [lia|].
  pose proof loop2_xops as LX. rewrite forallb_app in LX. apply andb_true_iff in LX. destruct LX as [LXa LXb].
  destruct (xops_some _ LXa (x s)) as (y1 & Y1). destruct (xops_some _ LXb y1) as (y2 & Y2).
  assert (Y : xops (c_loop2a ++ c_loop2b) (x s) = Some y2) by (rewrite xops_app, Y1; exact Y2).
  destruct (loop2_body s y2 Hx H41 Y) as (Q & Q41 & L).
  set (v := 4 * N.of_nat (S r)) in *.
  set (s1 := with_xs y1 s). set (s2 := set_f (Some (v <? 4)) (Some (v =? 4)) (set_g RCX (VI ((v + W64 - 4) mod W64)) s1)). set (s3 := with_xs y2 s2).
  assert (E3 : reach size p pc_loop2 s (JA Lmainloop2 :: rest) s3).
  { unfold pc_loop2. eapply reach_trans; [apply reach_seq; now apply xops_seq with (1 := Y1)|]. unfold c_sub4. cbn [app].
    eapply reach_trans; [apply reach_exec with (s' := s2); cbn; unfold int; cbn; now rewrite Hd|].
    eapply reach_trans; [apply reach_seq; apply xops_seq; exact Y2|]. unfold c_again2. cbn [app]. apply reach_refl. }
  assert (G : forall i, i <> RCX -> g s3 i = g s i).
  { intros i Hi. cbn. destruct (reg_beq i RCX) eqn:B; [apply reg_beq_eq in B; now elim Hi|reflexivity]. }
  destruct r as [|r].
  - exists s3. split; [|split; [reflexivity|split; [exact Q|split; [|exact G]]]]; [|change (2 * 1)%nat with 2%nat; rewrite iterate_2; exact L].
    eapply reach_trans; [exact E3|]. apply reach_next with Lmainloop2. reflexivity.
  - destruct (IH s3) as (s' & R' & M' & Q' & L' & G'); auto; try lia.
    { cbn. f_equal. unfold v, W64 in *. replace (4 * N.of_nat (S (S r)) + 2 ^ 64 - 4) with (4 * N.of_nat (S r) + 1 * 2 ^ 64) by lia.
      rewrite N.mod_add by discriminate. apply N.mod_small. lia. }
    exists s'. split; [|split; [now rewrite M'|split; [exact Q'|split]]].
    + eapply reach_trans; [exact E3|]. eapply reach_trans; [|exact R']. apply reach_jump with Lmainloop2; [|exact Ap]. cbn.
      replace (v <? 4) with false by lia. now replace (v =? 4) with false by lia.
    + rewrite L'. change (x s3) with y2. rewrite L. replace (2 * S (S r))%nat with (2 + 2 * S r)%nat by lia. rewrite (iterate_add 2), iterate_2. reflexivity.
    + intros i Hi. rewrite G' by exact Hi. now apply G.
Qed.
End Main2.
End Loops.
