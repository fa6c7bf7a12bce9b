(** The program computes the message xor the key stream *)
From Verif Require Import Base SalsaModel SalsaSpec SalsaSym SalsaSound SalsaSeg SalsaRun SalsaLoops.
Local Open Scope N_scope.

Lemma byte_of_word k o a t : t < 4 -> byte_at k o (a + t) = word_at k o a / 2 ^ (8 * t) mod 256.
Proof.
  intros H. unfold word_at. assert (B : forall j, byte_at k o j < 256) by (intros j; apply N.mod_lt; discriminate).
  pose proof (B a) as B0. pose proof (B (a + 1)) as B1. pose proof (B (a + 2)) as B2. pose proof (B (a + 3)) as B3. clear B.
  assert (C : t = 0 \/ t = 1 \/ t = 2 \/ t = 3) by lia. change (2 ^ 8) with 256. change (2 ^ 16) with 65536. change (2 ^ 24) with 16777216.
  destruct C as [-> | [-> | [-> | ->]]]; rewrite ?N.add_0_r;
    [change (2 ^ (8 * 0)) with 1|change (2 ^ (8 * 1)) with 256|change (2 ^ (8 * 2)) with 65536|change (2 ^ (8 * 3)) with 16777216];
    set (b0 := byte_at k o a) in *; set (b1 := byte_at k o (a + 1)) in *; set (b2 := byte_at k o (a + 2)) in *; set (b3 := byte_at k o (a + 3)) in *;
    clearbody b0 b1 b2 b3; lia.
Qed.
Lemma lxor_byte a b n : N.lxor a b / 2 ^ n mod 256 = N.lxor (a / 2 ^ n mod 256) (b / 2 ^ n mod 256).
Proof.
  rewrite <- !N.shiftr_div_pow2. change 256 with (2 ^ 8). apply N.bits_inj. intros i. rewrite N.lxor_spec. destruct (N.ltb_spec i 8).
  - rewrite !N.mod_pow2_bits_low by assumption. rewrite !N.shiftr_spec by lia. apply N.lxor_spec.
  - now rewrite !N.mod_pow2_bits_high by assumption.
Qed.
Lemma qv_split v : v < W64 -> qv [v] 0 < W32 /\ qv [v] 1 < W32 /\ v = qv [v] 0 + W32 * qv [v] 1.
Proof.
  intros H. unfold qv. cbn [N.div N.modulo N.eqb N.to_nat nth]. change (N.to_nat (0 / 2)) with 0%nat. change (N.to_nat (1 / 2)) with 0%nat. cbn [nth].
  change (0 mod 2 =? 0) with true. change (1 mod 2 =? 0) with false. cbv iota. unfold W32, W64 in *. change (2 ^ 32) with 4294967296.
  change (2 ^ 64) with 18446744073709551616 in H. lia.
Qed.
Definition kept (L : list expr) (l : list nat) : bool :=
  forallb (fun j => match nth_error L j with Some (EV i) => i =? N.of_nat j | _ => false end) l.
Lemma kept_ok L l j : kept L l = true -> List.In j l -> nth_error L j = Some (EV (N.of_nat j)).
Proof.
  intros H Hj. unfold kept in H. rewrite forallb_forall in H. specialize (H j Hj). destruct (nth_error L j) as [[]|]; try discriminate.
  apply N.eqb_eq in H. now subst.
Qed.
Lemma nth_error_seq {A} (f : nat -> A) n j : (j < n)%nat -> nth_error (map f (List.seq 0 n)) j = Some (f j).
Proof. intros H. rewrite nth_error_map. rewrite nth_error_nth' with (d := 0%nat) by (now rewrite seq_length). cbn. now rewrite seq_nth. Qed.
Lemma nth_L1 y l i : (i < 16)%nat -> nth i (L1 y l) 0 = lane (y (nth i order1 0%nat)) l.
Proof.
  intros H. unfold L1. rewrite nth_indep with (d' := lane (y 0%nat) l) by (rewrite map_length; exact H). apply (map_nth (fun r => lane (y r) l)).
Qed.
Lemma nth_L2 y i : (i < 16)%nat -> nth i (L2 y) 0 = lane (y (fst (nth i order2 (0%nat, 0)))) (snd (nth i order2 (0%nat, 0))).
Proof.
  intros H. unfold L2. rewrite nth_indep with (d' := lane (y (fst (0%nat, 0))) (snd (0%nat, 0))) by (rewrite map_length; exact H).
  apply (map_nth (fun p => lane (y (fst p)) (snd p)) order2 (0%nat, 0)).
Qed.
Lemma bidx_below i : (i < 16)%nat -> nth i bidx 0 < 16.
Proof. intros H. do 16 (destruct i as [|i]; [cbn; lia|]). lia. Qed.
Lemma sidx_bounds i : (i < 16)%nat -> 16 <= nth i sidx 0 /\ nth i sidx 0 + 4 <= 80 /\ (i <> 8%nat -> i <> 9%nat -> nth i sidx 0 + 4 <= 72).
Proof. intros H. do 16 (destruct i as [|i]; [cbn; lia|]). lia. Qed.
Lemma inc_word a : a < 2 ^ 32 -> ((a + 1) mod W64 + (a / 2 ^ 32 * 2 ^ 32) mod W64) mod W64 = a + 1.
Proof.
  intros H. rewrite (N.div_small a) by exact H. unfold W64. change (2 ^ 32) with 4294967296 in *. change (2 ^ 64) with 18446744073709551616. lia.
Qed.

Section Program.
Context (size : object -> N) (q : nat) (k0 : mem) (sp ko no io co len : N) (saved : list N).
Definition kb (a : N) : N := byte_at k0 Key (ko + a).
Definition nb (a : N) : N := byte_at k0 Nonce (no + a).
Definition st0 (b : N) : list N := start (le_word kb) (le_word nb) b.
Definition ks (j : N) : N := stream (2 * q) kb nb j.
Definition BaseW (k : mem) (b : N) : Prop := forall i, (i < 16)%nat -> wd sp k (nth i bidx 0) = nth i (st0 b) 0.
Definition SavedW (k : mem) : Prop := forall j, j < 14 -> wd sp k (88 + j) = qv saved j.
Definition SpreadW (k : mem) : Prop := forall i, (i < 16)%nat -> i <> 8%nat -> i <> 9%nat -> forall l, l < 4 -> wd sp k (nth i sidx 0 + l) = nth i (st0 0) 0.
Definition KeyW (k : mem) : Prop := forall i, (i < 16)%nat -> i <> 8%nat -> i <> 9%nat -> wd sp k (nth i bidx 0) = nth i (st0 0) 0.
Record Pos (k : mem) (n : N) : Prop := {
  p_out : forall j, j < n -> byte_at k Out (co + j) = N.lxor (byte_at k0 In (io + j)) (ks j);
  p_other : forall o a, (o = Stack -> a < sp \/ sp + 480 <= a) -> (o = Out -> a < co \/ co + n <= a) -> k o a = k0 o a }.

Lemma nth_st0 i b b' : i <> 8%nat -> i <> 9%nat -> nth i (st0 b) 0 = nth i (st0 b') 0.
Proof. intros H8 H9. unfold st0, start. do 16 (destruct i as [|i]; [cbn; try reflexivity; lia|]). now destruct i. Qed.
Lemma pos_local k k' n : local sp k k' -> Pos k n -> Pos k' n.
Proof.
  intros F [A B]. split.
  - intros j Hj. unfold byte_at. rewrite F by discriminate. now apply A.
  - intros o a H1 H2. rewrite F by exact H1. now apply B.
Qed.
Lemma pos_ext k k' n W : Pos k n -> frame (offf sp ko no (io + n) (co + n)) (winf W) k k' ->
  (forall t, t < W -> byte_at k' Out (co + n + t) = N.lxor (byte_at k0 In (io + n + t)) (ks (n + t))) -> Pos k' (n + W).
Proof.
  intros [A B] F H. split.
  - intros j Hj. destruct (N.ltb_spec j n) as [L|L].
    + rewrite <- (A j L). unfold byte_at. f_equal. apply F. intros _. cbn. lia.
    + specialize (H (j - n) ltac:(lia)). replace (co + n + (j - n)) with (co + j) in H by lia. replace (io + n + (j - n)) with (io + j) in H by lia.
      now replace (n + (j - n)) with j in H by lia.
  - intros o a H1 H2. rewrite F.
    + apply B; [exact H1|]. intros Ho. destruct (H2 Ho); lia.
    + intros W'. destruct o; try discriminate W'; cbn; [destruct (H1 eq_refl)|destruct (H2 eq_refl)]; lia.
Qed.
Lemma pos_in k n i t : Pos k n -> word_at k In i = word_at k0 In i /\ byte_at k In t = byte_at k0 In t.
Proof. intros [_ B]. unfold word_at, byte_at. rewrite !B by discriminate. auto. Qed.
Lemma base_next k k' b b' : (forall j, j < 16 -> j <> 4 -> j <> 9 -> wd sp k' j = wd sp k j) -> wd sp k' 4 = b' mod 2 ^ 32 -> wd sp k' 9 = b' / 2 ^ 32 ->
  BaseW k b -> BaseW k' b'.
Proof.
  intros H H4 H9 HB i Hi. destruct (Nat.eq_dec i 8) as [->|E8]; [exact H4|]. destruct (Nat.eq_dec i 9) as [->|E9]; [exact H9|].
  rewrite (nth_st0 i b' b E8 E9). rewrite <- (HB i Hi). apply H; [now apply bidx_below| |]; clear - Hi E8 E9; do 16 (destruct i as [|i]; [cbn; lia|]); lia.
Qed.
Lemma key_same k k' : same sp 0 4 k k' -> same sp 5 4 k k' -> same sp 10 6 k k' -> KeyW k -> KeyW k'.
Proof.
  intros A B C H i Hi H8 H9. rewrite <- (H i Hi H8 H9).
  assert (D : nth i bidx 0 < 4 \/ (5 <= nth i bidx 0 /\ nth i bidx 0 < 9) \/ (10 <= nth i bidx 0 /\ nth i bidx 0 < 16))
    by (clear - Hi H8 H9; do 16 (destruct i as [|i]; [cbn; lia|]); lia).
  destruct D as [D|[D|D]]; [apply A|apply B|apply C]; lia.
Qed.
Lemma base_key k b : BaseW k b -> KeyW k.
Proof. intros H i Hi H8 H9. rewrite (H i Hi). now apply nth_st0. Qed.
Lemma base_same k k' b : same sp 0 16 k k' -> BaseW k b -> BaseW k' b.
Proof. intros H HB i Hi. rewrite H; [now apply HB|lia|]. pose proof (bidx_below i Hi). lia. Qed.
Lemma saved_same k k' : same sp 88 14 k k' -> SavedW k -> SavedW k'.
Proof. intros H HB i Hi. rewrite H by lia. now apply HB. Qed.
Lemma same_part a c a' c' k k' : same sp a c k k' -> a <= a' -> a' + c' <= a + c -> same sp a' c' k k'.
Proof. intros H H1 H2 j J1 J2. apply H; lia. Qed.
Lemma spread_same k k' : same sp 16 56 k k' -> SpreadW k -> SpreadW k'.
Proof. intros H HS i Hi H8 H9 l Hl. pose proof (sidx_bounds i Hi) as (B1 & _ & B2). specialize (B2 H8 H9). rewrite H by lia. now apply HS. Qed.

(** From words to bytes *)
Lemma bytes_of_words k k1 o o1 a a1 b :
  (forall j, (j < 16)%nat -> word_at k o (a + 4 * N.of_nat j) = N.lxor (word (2 * q) (le_word kb) (le_word nb) b j) (word_at k1 o1 (a1 + 4 * N.of_nat j))) ->
  forall t, t < 64 -> byte_at k o (a + t) = N.lxor (byte_at k1 o1 (a1 + t)) (ks (64 * b + t)).
Proof.
  intros H t Ht. specialize (H (N.to_nat (t / 4)) ltac:(lia)). rewrite Nnat.N2Nat.id in H.
  replace (a + t) with (a + 4 * (t / 4) + t mod 4) by lia. replace (a1 + t) with (a1 + 4 * (t / 4) + t mod 4) by lia.
  rewrite !byte_of_word by lia. rewrite H, lxor_byte, N.lxor_comm. f_equal. unfold ks, stream.
  replace ((64 * b + t) / 64) with b by lia. replace ((64 * b + t) mod 64 / 4) with (t / 4) by lia. now replace ((64 * b + t) mod 4) with (t mod 4) by lia.
Qed.
Lemma base_list k b : BaseW k b -> map (fun i => wd sp k i) bidx = st0 b.
Proof.
  intros HB. apply (nth_ext _ _ 0 0); [reflexivity|]. intros i Hi. rewrite map_length in Hi. change (List.length bidx) with 16%nat in Hi.
  rewrite nth_indep with (d' := wd sp k 0) by (rewrite map_length; exact Hi). rewrite (map_nth (fun i => wd sp k i)). now apply HB.
Qed.

Context (Hq : (0 < q)%nat) (Hq64 : 4 * N.of_nat q < W64) (Hsp : sp mod 16 = 0) (Hst : sp + 480 <= size Stack) (Hin : io + len <= size In) (Hout : co + len <= size Out)
  (Hkey : ko + 32 <= size Key) (Hnon : no + 8 <= size Nonce) (Hlen : len <= 2 ^ 38).
Definition rounds : N := 4 * N.of_nat q.
Definition prog : list instr := program rounds.
Definition pc_ret : list instr := RET :: c_at65.
Definition pc_done : list instr := c_restore ++ [ADD R11 RSP; XOR RAX RAX; XOR RDX RDX] ++ pc_ret.
Definition pc_next1 : list instr := c_next1 ++ c_done ++ pc_done.
Definition pc_out1 : list instr := c_out1 ++ pc_next1.
Definition pc_load1 : list instr := c_load1 ++ c_rounds2 rounds ++ c_label2 ++ pc_loop2 pc_out1.
Definition pc_B : list instr := tl c_below256 ++ c_nocopy ++ pc_load1.
Definition pc_next4 : list instr := c_next4 ++ LABEL Lbytesbetween1and255 :: pc_B.
Definition pc_out4 : list instr := c_out4 ++ pc_next4.
Definition pc_loop1 : list instr := c_loop1 ++ c_again1 ++ pc_out4.
Definition pc_four : list instr := c_four ++ c_rounds1 rounds ++ c_load4 ++ c_label1 ++ pc_loop1.
Definition pc_spread : list instr := c_spread ++ c_at256 ++ pc_four.
Lemma prog_eq : prog = c_entry ++ c_save ++ c_cmp0 ++ c_start ++ c_init ++ c_cmp256 ++ pc_spread. Proof. reflexivity. Qed.
Lemma at_done : after Ldone prog = Some pc_done. Proof. reflexivity. Qed.
Lemma at_64 : after Lbytesatleast64 prog = Some (c_done ++ pc_done). Proof. reflexivity. Qed.
Lemma at_65 : after Lbytesatleast65 prog = Some (tl c_at65). Proof. reflexivity. Qed.
Lemma at_B : after Lbytesbetween1and255 prog = Some pc_B. Proof. reflexivity. Qed.
Lemma at_nocopy : after Lnocopy prog = Some pc_load1. Proof. reflexivity. Qed.
Lemma at_loop2 : after Lmainloop2 prog = Some (pc_loop2 pc_out1). Proof. reflexivity. Qed.
Lemma at_loop1 : after Lmainloop1 prog = Some (c_loop1 ++ c_again1 ++ pc_out4). Proof. reflexivity. Qed.
Lemma at_256 : after Lbytesatleast256 prog = Some pc_four. Proof. reflexivity. Qed.
Notation reach := (reach size prog).
Notation rho := (rho sp ko no).

Lemma same_words k' s ia ca ql L a c : (forall j e, nth_error L j = Some e -> (j < 120)%nat -> wd sp k' (N.of_nat j) = eval (rho s ia ca ql) e) ->
  kept L (List.seq a c) = true -> (a + c <= 120)%nat -> same sp (N.of_nat a) (N.of_nat c) (m s) k'.
Proof.
  intros A K B j J1 J2. rewrite <- (Nnat.N2Nat.id j). rewrite (A (N.to_nat j) (EV (N.of_nat (N.to_nat j)))).
  - cbn [eval]. apply rho_st. lia.
  - apply kept_ok with (1 := K). apply in_seq. lia.
  - lia.
Qed.
Ltac sames A K := eapply same_words; [exact A|vm_compute; reflexivity|lia].
Ltac reg C lem i := let K := fresh "K" in pose proof (C _ _ (regs_at _ _ _ i _ _ lem eq_refl eq_refl)) as K; cbn [regsem offf] in K; rewrite ?N.add_0_r in K.

Lemma block s b r : g s RSP = VP Stack sp -> g s R9 = VI r -> r < W64 -> BaseW (m s) b ->
  exists s', reach pc_load1 s pc_out1 s' /\ local sp (m s) (m s') /\ same sp 0 102 (m s) (m s') /\ same sp 104 16 (m s) (m s') /\
    wd sp (m s') 102 = qv [r] 0 /\ wd sp (m s') 103 = qv [r] 1 /\ (forall i, (i < 4)%nat -> qok (x s' i)) /\
    L2 (x s') = iterate (2 * q) doubleround (st0 b) /\
    g s' RSP = VP Stack sp /\ g s' RDX = g s RDX /\ g s' RDI = g s RDI /\ g s' RSI = g s RSI.
Proof.
  intros Hg H9 Hr HB. destruct (qv_split r Hr) as (Q0 & Q1 & Qr).
  assert (Hgs : forall r0 v, List.In (r0, v) ([(RSP, SP Stack 0); (R9, SQ 322 323)] ++ keep [RDX; RDI; RSI]) ->
    svrel (offf sp ko no 0 0) (g s) (Dag [] Z0) (rho s 0 0 [r]) v (g s r0)).
  { intros r0 v H. cbn [keep map app List.In] in H. destruct H as [H|[H|[H|[H|[H|[]]]]]]; injection H as <- <-; cbn [svrel offf]; try reflexivity.
    - now rewrite N.add_0_r.
    - pose proof (rho_q sp ko no s 0 0 [r] 0) as E0. pose proof (rho_q sp ko no s 0 0 [r] 1) as E1. change (322 + 0) with 322 in E0. change (322 + 1) with 323 in E1.
      unfold has. cbn [nx]. rewrite E0, E1. repeat split; try assumption. rewrite H9. now f_equal. }
  destruct (seg sp ko no size Hsp Hst 0 0 0 0 false _ c_load1 r_load1 10 s 0 0 [r] load1_run (Nat.le_0_l _) (Nat.le_0_l _) (Nat.le_0_l _)
    ltac:(intros i Hi; inversion Hi) (or_intror eq_refl) (or_intror eq_refl) ltac:(discriminate) Hgs) as (s1 & E & F & A & B & C & _).
  assert (A' : forall j e, nth_error (evs 0 102 ++ [EV 322; EV 323] ++ evs 104 16) j = Some e -> (j < 120)%nat -> wd sp (m s1) (N.of_nat j) = eval (rho s 0 0 [r]) e)
    by (intros j e He Hj; exact (A Stack 120%nat _ j e load1_words He Hj)).
  reg C load1_regs 0%nat. reg C load1_regs 1%nat. reg C load1_regs 2%nat. reg C load1_regs 3%nat.
  assert (Xa : forall i b0, List.In (i, b0) [(0, 12); (1, 0); (2, 4); (3, 8); (4, 0)]%nat ->
     x s1 i = Quad (wd sp (m s) (N.of_nat b0)) (wd sp (m s) (N.of_nat b0 + 1)) (wd sp (m s) (N.of_nat b0 + 2)) (wd sp (m s) (N.of_nat b0 + 3))).
  { intros i b0 H. cbn [List.In] in H. destruct H as [H|[H|[H|[H|[H|[]]]]]]; injection H as <- <-.
    - rewrite (B _ _ (regs_at _ _ _ 0 _ _ load1_x eq_refl eq_refl)). cbn [qmap eval]. now rewrite !rho_st by reflexivity.
    - rewrite (B _ _ (regs_at _ _ _ 1 _ _ load1_x eq_refl eq_refl)). cbn [qmap eval]. now rewrite !rho_st by reflexivity.
    - rewrite (B _ _ (regs_at _ _ _ 2 _ _ load1_x eq_refl eq_refl)). cbn [qmap eval]. now rewrite !rho_st by reflexivity.
    - rewrite (B _ _ (regs_at _ _ _ 3 _ _ load1_x eq_refl eq_refl)). cbn [qmap eval]. now rewrite !rho_st by reflexivity.
    - rewrite (B _ _ (regs_at _ _ _ 4 _ _ load1_x eq_refl eq_refl)). cbn [qmap eval]. now rewrite !rho_st by reflexivity. }
  pose proof (Xa 0%nat 12%nat ltac:(cbn; tauto)) as X0. pose proof (Xa 1%nat 0%nat ltac:(cbn; tauto)) as X1. pose proof (Xa 2%nat 4%nat ltac:(cbn; tauto)) as X2.
  pose proof (Xa 3%nat 8%nat ltac:(cbn; tauto)) as X3. pose proof (Xa 4%nat 0%nat ltac:(cbn; tauto)) as X4.
  assert (LL : L2 (x s1) = st0 b).
  { rewrite <- (base_list (m s) b HB). unfold L2, order2, bidx. cbn [map fst snd]. rewrite X0, X1, X2, X3. reflexivity. }
  set (s2 := set_g RCX (VI rounds) s1).
  destruct (loop2 size sp ko no Hsp Hst prog pc_out1 at_loop2 q s2) as (s' & R' & M' & Q' & L' & G'); auto.
  { intros i Hi. change (x s2 i) with (x s1 i).
    assert (W : forall o, qok (Quad (wd sp (m s) o) (wd sp (m s) (o + 1)) (wd sp (m s) (o + 2)) (wd sp (m s) (o + 3)))) by (intros o; cbn; unfold wd; repeat split; apply word_at_below).
    destruct i as [|[|[|[|i]]]]; [rewrite X0|rewrite X1|rewrite X2|rewrite X3|exfalso; clear - Hi; lia]; apply W. }
  { change (x s2) with (x s1). now rewrite X4, X1. }
  exists s'. split; [|split; [|split; [|split; [|split; [|split; [|split; [exact Q'|split]]]]]]].
  - unfold pc_load1. eapply reach_trans; [now apply reach_seq with (1 := E)|]. unfold c_rounds2, c_label2. cbn [app].
    eapply reach_trans; [apply reach_exec with (s' := s2); reflexivity|]. eapply reach_trans; [apply reach_exec with (s' := s2); reflexivity|]. exact R'.
  - rewrite M'. eapply local_frame; eassumption.
  - rewrite M'. change (m s2) with (m s1). apply (same_words (m s1) s 0 0 [r] _ 0 102 A'); [vm_compute; reflexivity|lia].
  - rewrite M'. change (m s2) with (m s1). apply (same_words (m s1) s 0 0 [r] _ 104 16 A'); [vm_compute; reflexivity|lia].
  - rewrite M'. change (m s2) with (m s1). exact (eq_trans (A' 102%nat (EV 322) eq_refl ltac:(lia)) (rho_q sp ko no s 0 0 [r] 0)).
  - rewrite M'. change (m s2) with (m s1). exact (eq_trans (A' 103%nat (EV 323) eq_refl ltac:(lia)) (rho_q sp ko no s 0 0 [r] 1)).
  - rewrite L'. change (x s2) with (x s1). now rewrite LL.
  - rewrite !G' by discriminate. auto.
Qed.

Lemma eval_out1 s ia ca ql b base j : (j < 16)%nat -> L2 (x s) = iterate (2 * q) doubleround (st0 b) -> BaseW (m s) b ->
  eval (rho s ia ca ql) (e_out1 base j) = N.lxor (word (2 * q) (le_word kb) (le_word nb) b j) (rho s ia ca ql (base + N.of_nat j)).
Proof.
  intros Hj HL HB. unfold e_out1. destruct (nth j order2 (0%nat, 0)) as [r l] eqn:E. cbn [eval]. f_equal.
  assert (Hrl : (r < 4)%nat /\ l < 4).
  { pose proof (order2_below (nth j order2 (0%nat, 0))) as B. rewrite E in B. apply B. rewrite <- E. apply nth_In. exact Hj. }
  destruct Hrl as [Hr Hl]. rewrite rho_st by (pose proof (bidx_below j Hj); lia). rewrite rho_x by lia. rewrite (HB j Hj). unfold word, add32.
  change (start (le_word kb) (le_word nb) b) with (st0 b). cbv zeta. rewrite <- HL, (nth_L2 _ _ Hj), E. reflexivity.
Qed.
Lemma eval_n1 s ia ca ql b : BaseW (m s) b -> b < 2 ^ 32 -> eval (rho s ia ca ql) e_n1 = b + 1.
Proof.
  intros HB Hb. pose proof (HB 8%nat ltac:(lia)) as H8. pose proof (HB 9%nat ltac:(lia)) as H9. cbn [nth bidx] in H8, H9.
  change (nth 8 (st0 b) 0) with (b mod 2 ^ 32) in H8. change (nth 9 (st0 b) 0) with (b / 2 ^ 32) in H9. unfold e_n1. cbn [eval].
  rewrite !rho_st by reflexivity. rewrite H8, H9, (N.mod_small b) by exact Hb. now apply inc_word.
Qed.
Lemma eval_next s ia ca ql e a : eval (rho s ia ca ql) e = a -> a < 2 ^ 32 -> eval (rho s ia ca ql) (e_next e) = a + 1.
Proof. intros H Ha. unfold e_next. cbn [eval]. rewrite H. now apply inc_word. Qed.
Lemma eval_lo s ia ca ql e a : eval (rho s ia ca ql) e = a -> eval (rho s ia ca ql) (ELo e) = a mod 2 ^ 32.
Proof. intros <-. reflexivity. Qed.
Lemma eval_hi s ia ca ql e a : eval (rho s ia ca ql) e = a -> a <= 2 ^ 32 -> eval (rho s ia ca ql) (e_hi e) = a / 2 ^ 32.
Proof.
  intros H Ha. unfold e_hi. cbn [eval]. rewrite H. apply N.mod_small. unfold W32. change (2 ^ 32) with 4294967296 in *. lia.
Qed.
Lemma r9_back k r : r < W64 -> wd sp k 102 = qv [r] 0 -> wd sp k 103 = qv [r] 1 -> wd sp k 102 + W32 * wd sp k 103 = r.
Proof. intros H E0 E1. rewrite E0, E1. symmetry. now apply qv_split. Qed.

Lemma outa s n b r : g s RSP = VP Stack sp -> g s RDI = VP Out (co + n) -> g s RSI = VP In (io + n) -> n = 64 * b -> n + 64 <= len -> b < 2 ^ 32 ->
  (forall i, (i < 4)%nat -> qok (x s i)) -> L2 (x s) = iterate (2 * q) doubleround (st0 b) -> BaseW (m s) b -> SavedW (m s) -> Pos (m s) n ->
  r < W64 -> wd sp (m s) 102 = qv [r] 0 -> wd sp (m s) 103 = qv [r] 1 ->
  exists s', reach pc_out1 s pc_next1 s' /\ g s' RSP = VP Stack sp /\ g s' RDI = VP Out (co + n) /\ g s' RSI = VP In (io + n) /\ g s' R9 = VI r /\
    BaseW (m s') (b + 1) /\ SavedW (m s') /\ Pos (m s') (n + 64).
Proof.
  intros Hg Hdi Hsi Hn Hlen' Hb Hx HL HB HS HP Hr W0 W1.
  assert (Hgs : forall r0 v, List.In (r0, v) [(RSP, SP Stack 0); (RDI, SP Out 0); (RSI, SP In 0)] ->
    svrel (offf sp ko no (io + n) (co + n)) (g s) (Dag [] Z0) (rho s (io + n) (co + n) []) v (g s r0)).
  { intros r0 v H. cbn [List.In] in H. destruct H as [H|[H|[H|[]]]]; injection H as <- <-; cbn [svrel offf]; now rewrite N.add_0_r. }
  destruct (seg sp ko no size Hsp Hst 64 4 16 16 false _ c_out1 r_outa 10 s (io + n) (co + n) [] outa_run ltac:(lia) ltac:(lia) ltac:(lia)
    Hx ltac:(left; lia) ltac:(left; lia) ltac:(discriminate) Hgs) as (s1 & E & F & A & _ & C & _).
  pose proof (fun j e => A Stack 120%nat _ j e outa_words) as A'.
  reg C outa_regs 0%nat. reg C outa_regs 1%nat. reg C outa_regs 2%nat. reg C outa_regs 3%nat.
  exists s1. split; [unfold pc_out1; now apply reach_seq|]. split; [exact K|]. split; [exact K0|]. split; [exact K1|].
  split; [|split; [|split]].
  - rewrite K2. f_equal. cbn [eval]. rewrite !rho_st by reflexivity. now apply r9_back.
  - apply (base_next (m s) (m s1) b (b + 1)); [| | |exact HB].
    + intros j Hj J4 J9. assert (D : j < 4 \/ (5 <= j /\ j < 9) \/ (10 <= j /\ j < 120)) by lia. destruct D as [D|[D|D]].
      * apply (same_words (m s1) s _ _ _ _ 0 4 A'); [vm_compute; reflexivity|lia|lia|lia].
      * apply (same_words (m s1) s _ _ _ _ 5 4 A'); [vm_compute; reflexivity|lia|lia|lia].
      * apply (same_words (m s1) s _ _ _ _ 10 110 A'); [vm_compute; reflexivity|lia|lia|lia].
    + refine (eq_trans (A' 4%nat _ eq_refl ltac:(lia)) _). apply eval_lo. now apply eval_n1.
    + refine (eq_trans (A' 9%nat _ eq_refl ltac:(lia)) _). apply eval_hi; [now apply eval_n1|lia].
  - apply (saved_same (m s) (m s1)); [|exact HS]. apply (same_part 10 110); [|lia|lia]. apply (same_words (m s1) s _ _ _ _ 10 110 A'); [vm_compute; reflexivity|lia].
  - apply (pos_ext (m s)); [exact HP|exact F|]. subst n. apply bytes_of_words with (k1 := k0) (o1 := In). intros j Hj.
    pose proof (A Out 16%nat _ j _ outa_out (nth_error_seq (e_out1 184) 16 j Hj) Hj) as Ao. cbn [offf] in Ao. rewrite Ao.
    rewrite (eval_out1 s _ _ _ b 184 j Hj HL HB). f_equal. rewrite rho_in by lia. apply (pos_in (m s) (64 * b) _ 0 HP).
Qed.

Lemma outb s n b r : g s RSP = VP Stack sp -> g s RDI = VP Stack (sp + 416) -> g s RSI = VP Stack (sp + 416) ->
  (forall i, (i < 4)%nat -> qok (x s i)) -> L2 (x s) = iterate (2 * q) doubleround (st0 b) -> BaseW (m s) b -> SavedW (m s) -> Pos (m s) n ->
  r < W64 -> wd sp (m s) 102 = qv [r] 0 -> wd sp (m s) 103 = qv [r] 1 ->
  exists s', reach pc_out1 s pc_next1 s' /\ g s' RSP = VP Stack sp /\ g s' RDI = VP Stack (sp + 416) /\ g s' RDX = g s RDX /\ g s' R9 = VI r /\
    SavedW (m s') /\ Pos (m s') n /\ (forall t, t < 64 -> byte_at (m s') Stack (sp + 416 + t) = N.lxor (byte_at (m s) Stack (sp + 416 + t)) (ks (64 * b + t))) /\ KeyW (m s').
Proof.
  intros Hg Hdi Hsi Hx HL HB HS HP Hr W0 W1.
  assert (Hgs : forall r0 v, List.In (r0, v) ([(RSP, SP Stack 0); (RDI, SP Stack 416); (RSI, SP Stack 416)] ++ keep [RDX]) ->
    svrel (offf sp ko no 0 0) (g s) (Dag [] Z0) (rho s 0 0 []) v (g s r0)).
  { intros r0 v H. cbn [List.In app keep map] in H. destruct H as [H|[H|[H|[H|[]]]]]; injection H as <- <-; cbn [svrel offf]; rewrite ?N.add_0_r; auto. }
  destruct (seg sp ko no size Hsp Hst 0 4 0 0 false _ c_out1 r_outb 10 s 0 0 [] outb_run ltac:(lia) ltac:(lia) ltac:(lia)
    Hx ltac:(right; lia) ltac:(right; lia) ltac:(discriminate) Hgs) as (s1 & E & F & A & _ & C & _).
  pose proof (fun j e => A Stack 120%nat _ j e outb_words) as A'.
  reg C outb_regs 0%nat. reg C outb_regs 1%nat. reg C outb_regs 3%nat. reg C outb_regs 4%nat.
  exists s1. split; [unfold pc_out1; now apply reach_seq|]. split; [exact K|]. split; [exact K0|]. split; [exact K2|].
  split; [|split; [|split; [|split]]].
  - rewrite K1. f_equal. cbn [eval]. rewrite !rho_st by reflexivity. now apply r9_back.
  - apply (saved_same (m s) (m s1)); [|exact HS]. apply (same_part 10 94); [|lia|lia]. apply (same_words (m s1) s _ _ _ _ 10 94 A'); [vm_compute; reflexivity|lia].
  - apply (pos_local (m s)); [|exact HP]. eapply local_frame; eassumption.
  - apply bytes_of_words. intros j Hj. assert (Je : nth_error (evs 0 4 ++ [ELo e_n1] ++ evs 5 4 ++ [e_hi e_n1] ++ evs 10 94 ++ map (e_out1 104) (List.seq 0 16)) (104 + j)
      = Some (e_out1 104 j)) by (clear - Hj; do 16 (destruct j as [|j]; [reflexivity|]); lia).
    pose proof (A' (104 + j)%nat _ Je ltac:(lia)) as Ao. cbn [offf] in Ao.
    replace (sp + 416 + 4 * N.of_nat j) with (sp + 4 * N.of_nat (104 + j)) by lia. rewrite Ao.
    rewrite (eval_out1 s _ _ _ b 104 j Hj HL HB). f_equal. rewrite rho_st by lia. unfold wd. f_equal. lia.
  - apply (key_same (m s) (m s1)); [| | |exact (base_key _ _ HB)].
    + apply (same_words (m s1) s _ _ _ _ 0 4 A'); [vm_compute; reflexivity|lia].
    + apply (same_words (m s1) s _ _ _ _ 5 4 A'); [vm_compute; reflexivity|lia].
    + apply (same_words (m s1) s _ _ _ _ 10 6 A'); [vm_compute; reflexivity|lia].
Qed.

Lemma saved_back k (i : nat) : SavedW k -> (i < 7)%nat -> wd sp k (88 + 2 * N.of_nat i) + W32 * wd sp k (88 + (2 * N.of_nat i + 1)) = nth i saved 0.
Proof.
  intros H Hi. rewrite !H by lia. unfold qv. replace (2 * N.of_nat i / 2) with (N.of_nat i) by lia. replace ((2 * N.of_nat i + 1) / 2) with (N.of_nat i) by lia.
  replace (2 * N.of_nat i mod 2) with 0 by lia. replace ((2 * N.of_nat i + 1) mod 2) with 1 by lia. cbn [N.eqb Pos.eqb]. rewrite Nnat.Nat2N.id.
  pose proof (N.div_mod (nth i saved 0) W32 ltac:(discriminate)). lia.
Qed.
Lemma restore_words : words_of 10 r_restore Stack 120 = Some (evs 0 120). Proof. vm_compute. reflexivity. Qed.
Lemma fin s : g s RSP = VP Stack sp -> SavedW (m s) ->
  exists s', reach pc_done s pc_ret s' /\ local sp (m s) (m s') /\ g s' RSP = VP Stack (sp + nth 0 saved 0) /\
    g s' R12 = VI (nth 1 saved 0) /\ g s' R13 = VI (nth 2 saved 0) /\ g s' R14 = VI (nth 3 saved 0) /\ g s' R15 = VI (nth 4 saved 0) /\
    g s' RBX = VI (nth 5 saved 0) /\ g s' RBP = VI (nth 6 saved 0) /\ g s' RAX = VI 0 /\ same sp 0 16 (m s) (m s').
Proof.
  intros Hg HS.
  assert (Hgs : forall r0 v, List.In (r0, v) [(RSP, SP Stack 0)] -> svrel (offf sp ko no 0 0) (g s) (Dag [] Z0) (rho s 0 0 []) v (g s r0)).
  { intros r0 v [H|[]]. injection H as <- <-; cbn [svrel offf]. now rewrite N.add_0_r. }
  destruct (seg sp ko no size Hsp Hst 0 0 0 0 false _ c_restore r_restore 10 s 0 0 [] restore_run (Nat.le_0_l _) (Nat.le_0_l _) (Nat.le_0_l _)
    ltac:(intros i Hi; inversion Hi) (or_intror eq_refl) (or_intror eq_refl) ltac:(discriminate) Hgs) as (s1 & E & F & A & _ & C & _).
  pose proof (fun j e => A Stack 120%nat _ j e restore_words) as A'.
  assert (Sm : same sp 0 16 (m s) (m s1)) by (apply (same_words (m s1) s _ _ _ _ 0 16 A'); [vm_compute; reflexivity|lia]). clear A A'.
  reg C restore_regs 0%nat. reg C restore_regs 1%nat. reg C restore_regs 2%nat. reg C restore_regs 3%nat. reg C restore_regs 4%nat. reg C restore_regs 5%nat.
  reg C restore_regs 6%nat. reg C restore_regs 7%nat. cbn [eval] in *. rewrite !rho_st in * by reflexivity.
  pose proof (saved_back _ 0 HS ltac:(lia) : wd sp (m s) 88 + W32 * wd sp (m s) 89 = nth 0 saved 0) as V0. pose proof (saved_back _ 1 HS ltac:(lia) : wd sp (m s) 90 + W32 * wd sp (m s) 91 = nth 1 saved 0) as V1. pose proof (saved_back _ 2 HS ltac:(lia) : wd sp (m s) 92 + W32 * wd sp (m s) 93 = nth 2 saved 0) as V2.
  pose proof (saved_back _ 3 HS ltac:(lia) : wd sp (m s) 94 + W32 * wd sp (m s) 95 = nth 3 saved 0) as V3. pose proof (saved_back _ 4 HS ltac:(lia) : wd sp (m s) 96 + W32 * wd sp (m s) 97 = nth 4 saved 0) as V4. pose proof (saved_back _ 5 HS ltac:(lia) : wd sp (m s) 98 + W32 * wd sp (m s) 99 = nth 5 saved 0) as V5.
  pose proof (saved_back _ 6 HS ltac:(lia) : wd sp (m s) 100 + W32 * wd sp (m s) 101 = nth 6 saved 0) as V6.
  rewrite V0 in K0. rewrite V1 in K1. rewrite V2 in K2. rewrite V3 in K3. rewrite V4 in K4. rewrite V5 in K5. rewrite V6 in K6.
  set (s2 := unflag (set_g RSP (VP Stack (sp + nth 0 saved 0)) s1)). set (s3 := unflag (set_g RAX (VI 0) s2)). set (s4 := unflag (set_g RDX (VI 0) s3)).
  exists s4. split; [|split; [|repeat split; cbn; assumption]].
  - unfold pc_done. eapply reach_trans; [now apply reach_seq with (1 := E)|]. cbn [app].
    eapply reach_trans; [apply reach_exec with (s' := s2)|eapply reach_trans; [apply reach_exec with (s' := s3)|apply reach_exec with (s' := s4)]]; try reflexivity.
    cbn. unfold int. now rewrite K0, K.
  - change (m s4) with (m s1). eapply local_frame; eassumption.
Qed.

Record Inv (s : st) (n b r : N) : Prop := {
  iSP : g s RSP = VP Stack sp; iDI : g s RDI = VP Out (co + n); iSI : g s RSI = VP In (io + n); i9 : g s R9 = VI r;
  iN : n = 64 * b; iR : n + r = len; iB : BaseW (m s) b; iS : SavedW (m s); iP : Pos (m s) n }.
(** At the end *)
Definition End (s : st) : Prop := g s RSP = VP Stack sp /\ SavedW (m s) /\ Pos (m s) len /\ (0 < len -> KeyW (m s)).
Lemma inv_b s n b r : Inv s n b r -> 0 < r -> b < 2 ^ 32 /\ r < W64 /\ n + r = len /\ n = 64 * b.
Proof.
  intros I Hr. pose proof (iN _ _ _ _ I) as A. pose proof (iR _ _ _ _ I) as B. unfold W64. change (2 ^ 38) with 274877906944 in Hlen.
  change (2 ^ 32) with 4294967296. change (2 ^ 64) with 18446744073709551616. lia.
Qed.
Lemma copy_other k o1 a o2 b n o i : o <> o2 \/ i < b \/ b + n <= i -> copy k o1 a o2 b n o i = k o i.
Proof.
  intros H. unfold copy. destruct (object_beq o o2) eqn:E; [|reflexivity]. apply object_beq_eq in E.
  destruct (N.leb_spec b i); cbn; [|reflexivity]. destruct (N.ltb_spec i (b + n)); cbn; [|reflexivity]. destruct H as [H|H]; [now elim H|lia].
Qed.
Lemma copy_at k o1 a o2 b n t : t < n -> copy k o1 a o2 b n o2 (b + t) = k o1 (a + t).
Proof.
  intros H. unfold copy. rewrite object_beq_refl. replace (b <=? b + t) with true by lia. replace (b + t <? b + n) with true by lia. cbn.
  now replace (b + t - b) with t by lia.
Qed.

Lemma tail_part s n b r : Inv s n b r -> 0 < r -> r < 64 -> exists s', reach pc_B s pc_done s' /\ End s'.
Proof.
  intros I Hr0 Hr. destruct (inv_b _ _ _ _ I Hr0) as (Hb & HrW & Hnr & Hn). destruct I as [Hg Hdi Hsi H9 _ _ HB HS HP].
  set (s1 := set_f (Some (r <? 64)) (Some (r =? 64)) s).
  assert (E2 : exists s2, seq size [MOV RDI RDX; LEAQ 416 RSP RDI; MOV R9 RCX; REP_MOVSB; LEAQ 416 RSP RDI; LEAQ 416 RSP RSI] s1 = Some s2 /\
    m s2 = copy (m s) In (io + n) Stack (sp + 416) r /\ g s2 RDX = VP Out (co + n) /\ g s2 RDI = VP Stack (sp + 416) /\ g s2 RSI = VP Stack (sp + 416) /\
    g s2 R9 = VI r /\ g s2 RSP = VP Stack sp).
  { eexists. split.
    - unfold s1. cbn [seq exec obind]. unfold addr, int. cbn [g set_g set_f reg_beq set_m unflag]. rewrite Hg. cbn [obind g set_g set_f reg_beq set_m]. rewrite H9, Hsi.
      cbn [obind object_beq negb writable andb]. replace (io + n + r <=? size In) with true by lia. replace (sp + 416 + r <=? size Stack) with true by lia. cbn [andb obind].
      unfold addr. cbn [obind g set_g set_f reg_beq set_m]. rewrite ?Hg. cbn [obind g set_g set_f reg_beq set_m]. rewrite ?Hg. cbn [obind]. reflexivity.
    - cbn. rewrite ?Hg, ?H9, ?Hdi. repeat split. }
  destruct E2 as (s2 & E2 & M2 & D2 & DI2 & SI2 & R2 & SP2).
  assert (Lc : local sp (m s) (m s2)).
  { intros o a H. rewrite M2. apply copy_other. destruct (object_beq o Stack) eqn:Eo; [apply object_beq_eq in Eo; destruct (H Eo); lia|].
    left. intros ->. discriminate Eo. }
  assert (Sc : same sp 0 104 (m s) (m s2)).
  { intros j _ Hj. unfold wd, word_at, byte_at. rewrite M2. rewrite !copy_other by lia. reflexivity. }
  assert (Bc : forall t, t < r -> byte_at (m s2) Stack (sp + 416 + t) = byte_at k0 In (io + n + t)).
  { intros t Ht. unfold byte_at. rewrite M2, copy_at by exact Ht. apply (pos_in (m s) n 0 _ HP). }
  destruct (block s2 b r SP2 R2 HrW) as (s3 & R3 & F3 & Sa & Sb & W0 & W1 & Q3 & L3 & SP3 & D3 & DI3 & SI3).
  { apply (base_same (m s)); [|exact HB]. apply (same_part 0 104); [exact Sc|lia|lia]. }
  assert (HB3 : BaseW (m s3) b).
  { apply (base_same (m s)); [|exact HB]. apply same_trans with (m s2); [apply (same_part 0 104)|apply (same_part 0 102)]; auto; lia. }
  assert (HS3 : SavedW (m s3)).
  { apply (saved_same (m s)); [|exact HS]. apply same_trans with (m s2); [apply (same_part 0 104)|apply (same_part 0 102)]; auto; lia. }
  assert (HP3 : Pos (m s3) n) by (apply (pos_local (m s)); [apply local_trans with (m s2)|]; assumption).
  destruct (outb s3 n b r SP3) as (s4 & R4 & SP4 & DI4 & D4 & R94 & S4 & P4 & B4 & KW4); auto; [now rewrite DI3|now rewrite SI3|].
  set (s5 := set_f (Some (r <? 64)) (Some (r =? 64)) s4).
  assert (E6 : exists s6, seq size [MOV RDI RSI; MOV RDX RDI; MOV R9 RCX; REP_MOVSB; LABEL Lbytesatleast64; LABEL Ldone] s5 = Some s6 /\
    m s6 = copy (m s4) Stack (sp + 416) Out (co + n) r /\ g s6 RSP = VP Stack sp).
  { eexists. split.
    - unfold s5. cbn [seq exec obind]. unfold addr, int. cbn [g set_g set_f reg_beq set_m unflag]. rewrite R94. cbn [obind]. rewrite D4, D3, D2, DI4.
      cbn [obind object_beq negb writable andb]. replace (sp + 416 + r <=? size Stack) with true by lia. replace (co + n + r <=? size Out) with true by lia. cbn [andb obind]. reflexivity.
    - cbn. auto. }
  destruct E6 as (s6 & E6 & M6 & SP6).
  exists s6. split; [|split; [exact SP6|split; [|split]]].
  - unfold pc_B. cbn [tl c_below256 app].
    eapply reach_trans; [apply reach_exec with (s' := s1); cbn; unfold int; now rewrite H9|].
    eapply reach_trans; [apply reach_next with Lnocopy; cbn; now replace (r <? 64) with true by lia|].
    eapply reach_trans; [exact (reach_seq size prog [MOV RDI RDX; LEAQ 416 RSP RDI; MOV R9 RCX; REP_MOVSB; LEAQ 416 RSP RDI; LEAQ 416 RSP RSI] (LABEL Lnocopy :: pc_load1) _ _ E2)|].
    eapply reach_trans; [apply reach_exec with (s' := s2); reflexivity|]. eapply reach_trans; [exact R3|]. eapply reach_trans; [exact R4|].
    unfold pc_next1, c_next1, c_done. cbn [app].
    eapply reach_trans; [apply reach_exec with (s' := s5); cbn; unfold int; now rewrite R94|].
    eapply reach_trans; [apply reach_next with Lbytesatleast65; cbn; now replace (r <? 64) with true by lia|].
    eapply reach_trans; [apply reach_next with Lbytesatleast64; cbn; now replace (r <? 64) with true by lia|].
    exact (reach_seq size prog [MOV RDI RSI; MOV RDX RDI; MOV R9 RCX; REP_MOVSB; LABEL Lbytesatleast64; LABEL Ldone] pc_done _ _ E6).
  - intros j Hj. unfold wd, word_at, byte_at. rewrite M6. rewrite !copy_other by (left; discriminate). exact (S4 j Hj).
  - destruct P4 as [Pa Pb]. split.
    + intros j Hj. unfold byte_at at 1. rewrite M6. destruct (N.ltb_spec j n) as [L|L].
      * rewrite copy_other by lia. now apply Pa.
      * replace (co + j) with (co + n + (j - n)) by lia. rewrite copy_at by lia. change (m s4 Stack (sp + 416 + (j - n)) mod 256) with (byte_at (m s4) Stack (sp + 416 + (j - n))).
        rewrite B4 by lia. f_equal; [|f_equal; lia].
        assert (Ew : forall t, t < 64 -> byte_at (m s3) Stack (sp + 416 + t) = byte_at (m s2) Stack (sp + 416 + t)).
        { intros t Ht. replace (sp + 416 + t) with (sp + 4 * (104 + t / 4) + t mod 4) by lia. rewrite !byte_of_word by lia. do 2 f_equal. apply Sb; lia. }
        rewrite Ew, Bc by lia. f_equal. lia.
    + intros o a H1 H2. rewrite M6. rewrite copy_other.
      * apply Pb; [exact H1|]. intros Ho. destruct (H2 Ho); lia.
      * destruct (object_beq o Out) eqn:Eo; [apply object_beq_eq in Eo; destruct (H2 Eo); lia|]. left. intros ->. discriminate Eo.
  - intros _ i Hi H8 H9'. rewrite <- (KW4 i Hi H8 H9'). unfold wd, word_at, byte_at. rewrite M6. rewrite !copy_other by (left; discriminate). reflexivity.
Qed.

Lemma loopB fuel s n b r : (N.to_nat r <= fuel)%nat -> Inv s n b r -> 0 < r -> exists s', reach pc_B s pc_done s' /\ End s'.
Proof.
  revert s n b r. induction fuel as [|fuel IH]; intros s n b r Hf I Hr; [lia|]. destruct (N.ltb_spec r 64) as [L|L]; [now apply (tail_part s n b r)|].
  destruct (inv_b _ _ _ _ I Hr) as (Hb & HrW & Hnr & Hn). destruct I as [Hg Hdi Hsi H9 _ _ HB HS HP].
  set (s1 := set_f (Some (r <? 64)) (Some (r =? 64)) s).
  destruct (block s1 b r Hg H9 HrW HB) as (s3 & R3 & F3 & Sa & Sb & W0 & W1 & Q3 & L3 & SP3 & D3 & DI3 & SI3). change (m s1) with (m s) in *.
  assert (HB3 : BaseW (m s3) b) by (apply (base_same (m s)); [apply (same_part 0 102); auto; lia|exact HB]).
  assert (HS3 : SavedW (m s3)) by (apply (saved_same (m s)); [apply (same_part 0 102); auto; lia|exact HS]).
  assert (HP3 : Pos (m s3) n) by (apply (pos_local (m s)); assumption).
  destruct (outa s3 n b r SP3) as (s4 & R4 & SP4 & DI4 & SI4 & R94 & B4 & S4 & P4); auto; [now rewrite DI3|now rewrite SI3|lia|].
  set (s5 := set_f (Some (r <? 64)) (Some (r =? 64)) s4).
  assert (E5 : reach pc_B s (JA Lbytesatleast65 :: JAE Lbytesatleast64 :: tl (tl (tl c_next1)) ++ c_done ++ pc_done) s5).
  { unfold pc_B. cbn [tl c_below256 app]. eapply reach_trans; [apply reach_exec with (s' := s1); cbn; unfold int; now rewrite H9|].
    eapply reach_trans; [apply reach_jump with Lnocopy; [cbn; now replace (r <? 64) with false by lia|exact at_nocopy]|].
    eapply reach_trans; [exact R3|]. eapply reach_trans; [exact R4|]. unfold pc_next1, c_next1. cbn [app tl]. apply reach_exec. cbn. unfold int. now rewrite R94. }
  destruct (N.eqb_spec r 64) as [->|N64].
  - exists s5. split.
    + eapply reach_trans; [exact E5|]. eapply reach_trans; [apply reach_next with Lbytesatleast65; reflexivity|].
      eapply reach_trans; [apply reach_jump with Lbytesatleast64; [reflexivity|exact at_64]|]. unfold c_done. cbn [app]. apply reach_exec. reflexivity.
    + split; [exact SP4|]. split; [exact S4|]. split; [rewrite <- Hnr; exact P4|]. intros _. exact (base_key _ _ B4).
  - set (s6 := unflag (set_g RSI (VP In (io + (n + 64))) (unflag (set_g RDI (VP Out (co + (n + 64))) (set_f (Some (r <? 64)) (Some (r =? 64)) (set_g R9 (VI ((r + W64 - 64) mod W64)) s5)))))).
    assert (E6 : seq size [SUBI 64 R9; ADDI 64 RDI; ADDI 64 RSI] s5 = Some s6).
    { unfold s6, s5. cbn [seq exec]. unfold int. cbn [g set_f set_g unflag reg_beq]. rewrite R94. cbn [obind g set_f set_g unflag reg_beq]. rewrite DI4. cbn [obind g set_f set_g unflag reg_beq].
      rewrite SI4. cbn [obind]. now rewrite !N.add_assoc. }
    destruct (IH s6 (n + 64) (b + 1) (r - 64)) as (s' & R' & E'); [lia| |lia|].
    { split; try reflexivity; try assumption; try lia; try exact SP4. cbn. f_equal. unfold W64 in *. replace (r + 2 ^ 64 - 64) with (r - 64 + 1 * 2 ^ 64) by lia.
      rewrite N.mod_add by discriminate. apply N.mod_small. lia. }
    exists s'. split; [|exact E']. eapply reach_trans; [exact E5|].
    eapply reach_trans; [apply reach_jump with Lbytesatleast65; [|exact at_65]|].
    + cbn. replace (r <? 64) with false by lia. now replace (r =? 64) with false by lia.
    + cbn [tl c_at65]. eapply reach_trans; [exact (reach_seq size prog [SUBI 64 R9; ADDI 64 RDI; ADDI 64 RSI] [JMP Lbytesbetween1and255] _ _ E6)|].
      eapply reach_trans; [apply reach_jump with Lbytesbetween1and255; [reflexivity|exact at_B]|]. exact R'.
Qed.

Definition Spread4 (k : mem) (b : N) : Prop := forall i, (i < 16)%nat -> forall l, l < 4 -> wd sp k (nth i sidx 0 + l) = nth i (st0 (b + l)) 0.
Lemma lane_wd k a l : l < 4 -> lane (Quad (wd sp k a) (wd sp k (a + 1)) (wd sp k (a + 2)) (wd sp k (a + 3))) l = wd sp k (a + l).
Proof.
  intros H. unfold lane. destruct (N.eqb_spec l 0) as [->|]; [now rewrite N.add_0_r|]. destruct (N.eqb_spec l 1) as [->|]; [reflexivity|].
  destruct (N.eqb_spec l 2) as [->|]; [reflexivity|]. now replace l with 3 by lia.
Qed.
Lemma order1_all r : (r < 16)%nat -> exists i, (i < 16)%nat /\ nth i order1 0%nat = r.
Proof.
  intros H. assert (Hi : List.In r order1) by (do 16 (destruct r as [|r]; [cbn; tauto|]); lia). apply (In_nth order1 r 0%nat) in Hi. destruct Hi as (i & A & B). exists i. split; [exact A|exact B].
Qed.
Lemma eval_out4 s ia ca ql b j : (j < 64)%nat -> (forall l, l < 4 -> L1 (x s) l = iterate (2 * q) doubleround (st0 (b + l))) -> Spread4 (m s) b ->
  eval (rho s ia ca ql) (e_out4 j) = N.lxor (word (2 * q) (le_word kb) (le_word nb) (b + N.of_nat (j / 16)) (j mod 16)) (rho s ia ca ql (184 + N.of_nat j)).
Proof.
  intros Hj HL HS. unfold e_out4. cbv zeta. cbn [eval]. f_equal.
  assert (Hi : (j mod 16 < 16)%nat) by (apply Nat.mod_upper_bound; lia). assert (Hl : (j / 16 < 4)%nat) by (apply Nat.div_lt_upper_bound; lia).
  set (i := (j mod 16)%nat) in *. set (l := N.of_nat (j / 16)). assert (Hl' : l < 4) by (unfold l; lia). clearbody i l.
  pose proof (sidx_bounds i Hi) as (B1 & B2 & _). rewrite rho_st by lia.
  rewrite rho_x; [|apply order1_below; apply nth_In; exact Hi|exact Hl']. rewrite (HS i Hi l Hl'). unfold word, add32.
  change (start (le_word kb) (le_word nb) (b + l)) with (st0 (b + l)). cbv zeta. rewrite <- (HL l Hl'), (nth_L1 _ _ _ Hi). reflexivity.
Qed.

Lemma four s n b r : Inv s n b r -> 256 <= r -> SpreadW (m s) ->
  exists s', reach pc_four s pc_next4 s' /\ g s' RSP = VP Stack sp /\ g s' RDI = VP Out (co + n) /\ g s' RSI = VP In (io + n) /\ g s' R9 = VI r /\
    BaseW (m s') (b + 4) /\ SavedW (m s') /\ SpreadW (m s') /\ Pos (m s') (n + 256).
Proof.
  intros I Hr HSp. destruct (inv_b _ _ _ _ I ltac:(lia)) as (Hb & HrW & Hnr & Hn). destruct I as [Hg Hdi Hsi H9 _ _ HB HS HP].
  assert (Hb4 : b + 4 <= 2 ^ 32) by (change (2 ^ 38) with 274877906944 in Hlen; change (2 ^ 32) with 4294967296; lia).
  destruct (qv_split r HrW) as (Q0 & Q1 & Qr).
  (* the counters *)
  assert (Hgs : forall r0 v, List.In (r0, v) ([(RSP, SP Stack 0); (R9, SQ 322 323)] ++ keep [RDI; RSI]) ->
    svrel (offf sp ko no 0 0) (g s) (Dag [] Z0) (rho s 0 0 [r]) v (g s r0)).
  { intros r0 v H. cbn [keep map app List.In] in H. destruct H as [H|[H|[H|[H|[]]]]]; injection H as <- <-; cbn [svrel offf]; try reflexivity.
    - now rewrite N.add_0_r.
    - pose proof (rho_q sp ko no s 0 0 [r] 0) as E0. pose proof (rho_q sp ko no s 0 0 [r] 1) as E1. change (322 + 0) with 322 in E0. change (322 + 1) with 323 in E1.
      unfold has. cbn [nx]. rewrite E0, E1. repeat split; try assumption. rewrite H9. now f_equal. }
  destruct (seg sp ko no size Hsp Hst 0 0 0 0 false _ c_four r_four 50 s 0 0 [r] four_run (Nat.le_0_l _) (Nat.le_0_l _) (Nat.le_0_l _)
    ltac:(intros i Hi; inversion Hi) (or_intror eq_refl) (or_intror eq_refl) ltac:(discriminate) Hgs) as (s1 & E & F & A & _ & C & _).
  pose proof (fun j e => A Stack 120%nat _ j e four_words) as A'.
  assert (C' : forall r0 v, gsum 10 r_four r0 = Some v -> regsem sp ko no 0 0 (g s) (rho s 0 0 [r]) v (g s1 r0)).
  { destruct (seg sp ko no size Hsp Hst 0 0 0 0 false _ c_four r_four 10 s 0 0 [r] four_run (Nat.le_0_l _) (Nat.le_0_l _) (Nat.le_0_l _)
      ltac:(intros i Hi; inversion Hi) (or_intror eq_refl) (or_intror eq_refl) ltac:(discriminate) Hgs) as (s1' & E' & _ & _ & _ & C' & _).
    rewrite E in E'. injection E' as <-. exact C'. }
  reg C' four_regs 0%nat. reg C' four_regs 1%nat. reg C' four_regs 2%nat.
  pose proof (eval_n1 s 0 0 [r] b HB Hb) as V1.
  assert (V2 : eval (rho s 0 0 [r]) e_n2 = b + 2) by (unfold e_n2; rewrite (eval_next s 0 0 [r] _ _ V1) by lia; clear; lia).
  assert (V3 : eval (rho s 0 0 [r]) e_n3 = b + 3) by (unfold e_n3; rewrite (eval_next s 0 0 [r] _ _ V2) by lia; clear; lia).
  assert (V4 : eval (rho s 0 0 [r]) e_n4 = b + 4) by (unfold e_n4; rewrite (eval_next s 0 0 [r] _ _ V3) by lia; clear; lia).
  pose proof (HB 8%nat ltac:(lia)) as H8. pose proof (HB 9%nat ltac:(lia)) as H9'. cbn [nth bidx] in H8, H9'.
  change (nth 8 (st0 b) 0) with (b mod 2 ^ 32) in H8. change (nth 9 (st0 b) 0) with (b / 2 ^ 32) in H9'.
  assert (HS1 : Spread4 (m s1) b).
  { intros i Hi l Hl. destruct (Nat.eq_dec i 8) as [->|E8]; [|destruct (Nat.eq_dec i 9) as [->|E9]].
    - change (nth 8 (st0 (b + l)) 0) with ((b + l) mod 2 ^ 32). change (nth 8 sidx 0) with 72. assert (D : l = 0 \/ l = 1 \/ l = 2 \/ l = 3) by lia.
      destruct D as [-> | [-> | [-> | ->]]].
      + refine (eq_trans (A' 72%nat _ eq_refl ltac:(lia)) _). cbn [eval]. rewrite rho_st by reflexivity. now rewrite N.add_0_r.
      + refine (eq_trans (A' 73%nat _ eq_refl ltac:(lia)) _). exact (eval_lo _ _ _ _ _ _ V1).
      + refine (eq_trans (A' 74%nat _ eq_refl ltac:(lia)) _). exact (eval_lo _ _ _ _ _ _ V2).
      + refine (eq_trans (A' 75%nat _ eq_refl ltac:(lia)) _). exact (eval_lo _ _ _ _ _ _ V3).
    - change (nth 9 (st0 (b + l)) 0) with ((b + l) / 2 ^ 32). change (nth 9 sidx 0) with 76. assert (D : l = 0 \/ l = 1 \/ l = 2 \/ l = 3) by lia.
      destruct D as [-> | [-> | [-> | ->]]].
      + refine (eq_trans (A' 76%nat _ eq_refl ltac:(lia)) _). cbn [eval]. rewrite rho_st by reflexivity. now rewrite N.add_0_r.
      + refine (eq_trans (A' 77%nat _ eq_refl ltac:(lia)) _). apply (eval_hi _ _ _ _ _ _ V1). lia.
      + refine (eq_trans (A' 78%nat _ eq_refl ltac:(lia)) _). apply (eval_hi _ _ _ _ _ _ V2). lia.
      + refine (eq_trans (A' 79%nat _ eq_refl ltac:(lia)) _). apply (eval_hi _ _ _ _ _ _ V3). lia.
    - rewrite (nth_st0 i (b + l) 0 E8 E9). rewrite <- (HSp i Hi E8 E9 l Hl). pose proof (sidx_bounds i Hi) as (B1 & _ & B2). specialize (B2 E8 E9).
      apply (same_words (m s1) s _ _ _ _ 10 62 A'); [vm_compute; reflexivity|lia|lia|lia]. }
  assert (HB1 : BaseW (m s1) (b + 4)).
  { apply (base_next (m s) (m s1) b (b + 4)); [| | |exact HB].
    - intros j Hj J4 J9. assert (D : j < 4 \/ (5 <= j /\ j < 9) \/ (10 <= j /\ j < 72)) by lia. destruct D as [D|[D|D]].
      * apply (same_words (m s1) s _ _ _ _ 0 4 A'); [vm_compute; reflexivity|lia|lia|lia].
      * apply (same_words (m s1) s _ _ _ _ 5 4 A'); [vm_compute; reflexivity|lia|lia|lia].
      * apply (same_words (m s1) s _ _ _ _ 10 62 A'); [vm_compute; reflexivity|lia|lia|lia].
    - refine (eq_trans (A' 4%nat _ eq_refl ltac:(lia)) _). exact (eval_lo _ _ _ _ _ _ V4).
    - refine (eq_trans (A' 9%nat _ eq_refl ltac:(lia)) _). apply (eval_hi _ _ _ _ _ _ V4). lia. }
  assert (HSv1 : SavedW (m s1)).
  { apply (saved_same (m s)); [|exact HS]. apply (same_part 80 22); [|lia|lia]. apply (same_words (m s1) s _ _ _ _ 80 22 A'); [vm_compute; reflexivity|lia]. }
  assert (HSp1 : SpreadW (m s1)).
  { apply (spread_same (m s)); [|exact HSp]. apply (same_part 10 62); [|lia|lia]. apply (same_words (m s1) s _ _ _ _ 10 62 A'); [vm_compute; reflexivity|lia]. }
  assert (HP1 : Pos (m s1) n) by (apply (pos_local (m s)); [eapply local_frame; eassumption|exact HP]).
  pose proof (eq_trans (A' 102%nat _ eq_refl ltac:(lia)) (rho_q sp ko no s 0 0 [r] 0) : wd sp (m s1) 102 = qv [r] 0) as W0.
  pose proof (eq_trans (A' 103%nat _ eq_refl ltac:(lia)) (rho_q sp ko no s 0 0 [r] 1) : wd sp (m s1) 103 = qv [r] 1) as W1.
  clear A A' C C' V1 V2 V3 V4 Hgs F.
  (* the registers *)
  set (s2 := set_g RDX (VI rounds) s1).
  assert (Hgs : forall r0 v, List.In (r0, v) ([(RSP, SP Stack 0)] ++ keep [RDX; RDI; RSI]) ->
    svrel (offf sp ko no 0 0) (g s2) (Dag [] Z0) (rho s2 0 0 []) v (g s2 r0)).
  { intros r0 v H. cbn [keep map app List.In] in H. destruct H as [H|[H|[H|[H|[]]]]]; injection H as <- <-; cbn [svrel offf]; try reflexivity.
    rewrite N.add_0_r. exact K. }
  destruct (seg sp ko no size Hsp Hst 0 0 0 0 false _ c_load4 r_load4 10 s2 0 0 [] load4_run (Nat.le_0_l _) (Nat.le_0_l _) (Nat.le_0_l _)
    ltac:(intros i Hi; inversion Hi) (or_intror eq_refl) (or_intror eq_refl) ltac:(discriminate) Hgs) as (s3 & E3 & F3 & A3 & B3 & C3 & _).
  pose proof (fun j e => A3 Stack 120%nat _ j e load4_words) as A3'.
  reg C3 load4_regs 0%nat. reg C3 load4_regs 1%nat. reg C3 load4_regs 2%nat. reg C3 load4_regs 3%nat.
  assert (Sm3 : same sp 0 120 (m s1) (m s3)) by (apply (same_words (m s3) s2 _ _ _ _ 0 120 A3'); [vm_compute; reflexivity|lia]).
  assert (X3 : forall i, (i < 16)%nat -> let a := nth i sidx 0 in
    x s3 (nth i order1 0%nat) = Quad (wd sp (m s1) a) (wd sp (m s1) (a + 1)) (wd sp (m s1) (a + 2)) (wd sp (m s1) (a + 3))).
  { intros i Hi. cbv zeta. pose proof (sidx_bounds i Hi) as (Z1 & Z2 & _).
    assert (Eo : nth_error order1 i = Some (nth i order1 0%nat)) by (apply nth_error_nth'; exact Hi).
    assert (Es : nth_error (map (fun i => Some (Quad (EV i) (EV (i + 1)) (EV (i + 2)) (EV (i + 3)))) sidx) i =
      Some (Some (Quad (EV (nth i sidx 0)) (EV (nth i sidx 0 + 1)) (EV (nth i sidx 0 + 2)) (EV (nth i sidx 0 + 3)))))
      by (rewrite nth_error_map, (nth_error_nth' sidx 0) by exact Hi; reflexivity).
    rewrite (B3 _ _ (regs_at _ _ _ i _ _ load4_x Eo Es)). cbn [qmap eval]. rewrite !rho_st by lia. reflexivity. }
  assert (L3 : forall l, l < 4 -> L1 (x s3) l = st0 (b + l)).
  { intros l Hl. apply (nth_ext _ _ 0 0); [reflexivity|]. intros i Hi. change (List.length (L1 (x s3) l)) with 16%nat in Hi.
    rewrite (nth_L1 _ _ _ Hi), (X3 i Hi), lane_wd by exact Hl. now apply HS1. }
  assert (Q3 : forall i, (i < 16)%nat -> qok (x s3 i)).
  { intros i Hi. destruct (order1_all i Hi) as (j & Hj & <-). rewrite (X3 j Hj). cbn. unfold wd. repeat split; apply word_at_below. }
  assert (Dx : g s3 RDX = VI (2 * N.of_nat (2 * q))) by (rewrite K3; change (g s2 RDX) with (VI rounds); f_equal; unfold rounds; lia).
  destruct (loop1 size sp ko no Hsp Hst prog pc_out4 at_loop1 (2 * q) s3 ltac:(lia) ltac:(lia) K2 Q3 Dx) as (s4 & R4 & F4 & Sa & Sb & Q4 & L4 & G4 & DI4 & SI4).
  assert (Sm4 : same sp 0 80 (m s1) (m s4)) by (apply same_trans with (m s3); [apply (same_part 0 120); auto; lia|exact Sa]).
  assert (Sn4 : same sp 88 32 (m s1) (m s4)) by (apply same_trans with (m s3); [apply (same_part 0 120); auto; lia|exact Sb]).
  assert (HS4 : Spread4 (m s4) b).
  { intros i Hi l Hl. pose proof (sidx_bounds i Hi) as (B1 & B2 & _). rewrite Sm4 by lia. now apply HS1. }
  assert (HB4 : BaseW (m s4) (b + 4)) by (apply (base_same (m s1)); [apply (same_part 0 80); auto; lia|exact HB1]).
  assert (HSv4 : SavedW (m s4)) by (apply (saved_same (m s1)); [apply (same_part 88 32); auto; lia|exact HSv1]).
  assert (HSp4 : SpreadW (m s4)) by (apply (spread_same (m s1)); [apply (same_part 0 80); auto; lia|exact HSp1]).
  assert (HP4 : Pos (m s4) n).
  { apply (pos_local (m s1)); [|exact HP1]. apply local_trans with (m s3); [|exact F4]. change (m s1) with (m s2). eapply local_frame; eassumption. }
  assert (LL4 : forall l, l < 4 -> L1 (x s4) l = iterate (2 * q) doubleround (st0 (b + l))) by (intros l Hl; rewrite L4, L3 by exact Hl; reflexivity).
  assert (DI4' : g s4 RDI = VP Out (co + n)) by (rewrite DI4, K4; change (g s2 RDI) with (g s1 RDI); now rewrite K0).
  assert (SI4' : g s4 RSI = VP In (io + n)) by (rewrite SI4, K5; change (g s2 RSI) with (g s1 RSI); now rewrite K1).
  assert (W04 : wd sp (m s4) 102 = qv [r] 0) by (rewrite Sn4 by lia; exact W0).
  assert (W14 : wd sp (m s4) 103 = qv [r] 1) by (rewrite Sn4 by lia; exact W1).
  (* the output *)
  assert (Hgs5 : forall r0 v, List.In (r0, v) [(RSP, SP Stack 0); (RDI, SP Out 0); (RSI, SP In 0)] ->
    svrel (offf sp ko no (io + n) (co + n)) (g s4) (Dag [] Z0) (rho s4 (io + n) (co + n) []) v (g s4 r0)).
  { intros r0 v H. cbn [List.In] in H. destruct H as [H|[H|[H|[]]]]; injection H as <- <-; cbn [svrel offf]; now rewrite N.add_0_r. }
  destruct (seg sp ko no size Hsp Hst 256 16 64 64 false _ c_out4 r_out4 10 s4 (io + n) (co + n) [] out4_run ltac:(lia) ltac:(lia) ltac:(lia)
    Q4 ltac:(left; lia) ltac:(left; lia) ltac:(discriminate) Hgs5) as (s5 & E5 & F5 & A5 & _ & C5 & _).
  pose proof (fun j e => A5 Stack 120%nat _ j e out4_words) as A5'.
  reg C5 out4_regs 0%nat. reg C5 out4_regs 1%nat. reg C5 out4_regs 2%nat. reg C5 out4_regs 3%nat.
  assert (Sm5 : same sp 0 120 (m s4) (m s5)) by (apply (same_words (m s5) s4 _ _ _ _ 0 120 A5'); [vm_compute; reflexivity|lia]).
  exists s5. split; [|split; [exact K6|split; [exact K7|split; [exact K8|split; [|split; [|split; [|split]]]]]]].
  - unfold pc_four. eapply reach_trans; [now apply reach_seq with (1 := E)|]. unfold c_rounds1, c_label1. cbn [app].
    eapply reach_trans; [apply reach_exec with (s' := s2); reflexivity|]. eapply reach_trans; [now apply reach_seq with (1 := E3)|].
    eapply reach_trans; [apply reach_exec with (s' := s3); reflexivity|]. eapply reach_trans; [exact R4|]. unfold pc_out4. now apply reach_seq.
  - rewrite K9. f_equal. cbn [eval]. rewrite !rho_st by reflexivity. now apply r9_back.
  - apply (base_same (m s4)); [apply (same_part 0 120); auto; lia|exact HB4].
  - apply (saved_same (m s4)); [apply (same_part 0 120); auto; lia|exact HSv4].
  - apply (spread_same (m s4)); [apply (same_part 0 120); auto; lia|exact HSp4].
  - apply (pos_ext (m s4)); [exact HP4|exact F5|]. intros t Ht.
    assert (BW : forall l, l < 4 -> forall u, u < 64 -> byte_at (m s5) Out (co + n + 64 * l + u) = N.lxor (byte_at k0 In (io + n + 64 * l + u)) (ks (64 * (b + l) + u))).
    { intros l Hl. apply bytes_of_words. intros j Hj. set (jj := (16 * N.to_nat l + j)%nat). assert (Hjj : (jj < 64)%nat) by (unfold jj; lia).
      pose proof (A5 Out 64%nat _ jj _ out4_out (nth_error_seq e_out4 64 jj Hjj) Hjj) as Ao. cbn [offf] in Ao.
      replace (co + n + 64 * l + 4 * N.of_nat j) with (co + n + 4 * N.of_nat jj) by (unfold jj; lia). rewrite Ao.
      rewrite (eval_out4 s4 _ _ _ b jj Hjj LL4 HS4). rewrite rho_in by lia.
      assert (D16 : (jj / 16)%nat = N.to_nat l) by (unfold jj; clear - Hj; lia). assert (M16 : (jj mod 16)%nat = j) by (unfold jj; clear - Hj; lia).
      rewrite D16, M16, Nnat.N2Nat.id. f_equal. replace (io + n + 64 * l + 4 * N.of_nat j) with (io + n + 4 * N.of_nat jj) by (unfold jj; lia). apply (pos_in (m s4) n _ 0 HP4). }
    specialize (BW (t / 64) ltac:(lia) (t mod 64) ltac:(lia)). replace (co + n + 64 * (t / 64) + t mod 64) with (co + n + t) in BW by lia.
    replace (io + n + 64 * (t / 64) + t mod 64) with (io + n + t) in BW by lia. now replace (64 * (b + t / 64) + t mod 64) with (n + t) in BW by lia.
Qed.

Lemma loop256 fuel s n b r : (N.to_nat r <= fuel)%nat -> Inv s n b r -> 256 <= r -> SpreadW (m s) -> exists s', reach pc_four s pc_done s' /\ End s'.
Proof.
  revert s n b r. induction fuel as [|fuel IH]; intros s n b r Hf I Hr HSp; [lia|].
  destruct (inv_b _ _ _ _ I ltac:(lia)) as (Hb & HrW & Hnr & Hn).
  destruct (four s n b r I Hr HSp) as (s1 & R1 & SP1 & DI1 & SI1 & R91 & HB1 & HS1 & HSp1 & HP1).
  set (r1 := r - 256). set (n1 := n + 256).
  set (s2 := set_f (Some (r1 <? 256)) (Some (r1 =? 256)) (unflag (set_g RDI (VP Out (co + n1)) (unflag (set_g RSI (VP In (io + n1))
    (set_f (Some (r <? 256)) (Some (r =? 256)) (set_g R9 (VI r1) s1))))))).
  assert (E2 : seq size [SUBI 256 R9; ADDI 256 RSI; ADDI 256 RDI; CMPI 256 R9] s1 = Some s2).
  { unfold s2. cbn [seq exec]. unfold int. rewrite R91. cbn [obind g set_f set_g unflag reg_beq]. rewrite SI1. cbn [obind g set_f set_g unflag reg_beq]. rewrite DI1.
    cbn [obind g set_f set_g unflag reg_beq]. replace ((r + W64 - 256) mod W64) with r1; [unfold n1; now rewrite !N.add_assoc|].
    unfold r1, W64 in *. replace (r + 2 ^ 64 - 256) with (r - 256 + 1 * 2 ^ 64) by lia. rewrite N.mod_add by discriminate. symmetry. apply N.mod_small. lia. }
  assert (Rb : reach pc_four s (JAE Lbytesatleast256 :: CMPI 0 R9 :: JBE Ldone :: LABEL Lbytesbetween1and255 :: pc_B) s2).
  { eapply reach_trans; [exact R1|]. exact (reach_seq size prog [SUBI 256 R9; ADDI 256 RSI; ADDI 256 RDI; CMPI 256 R9] _ _ _ E2). }
  assert (I2 : Inv s2 n1 (b + 4) r1).
  { split; try reflexivity; try assumption; try exact SP1; unfold n1, r1; lia. }
  destruct (N.leb_spec 256 r1) as [L|L].
  - destruct (IH s2 n1 (b + 4) r1 ltac:(unfold r1 in *; lia) I2 L HSp1) as (s' & R' & E'). exists s'. split; [|exact E'].
    eapply reach_trans; [exact Rb|]. eapply reach_trans; [apply reach_jump with Lbytesatleast256; [cbn; now replace (r1 <? 256) with false by lia|exact at_256]|]. exact R'.
  - set (s3 := set_f (Some (r1 <? 0)) (Some (r1 =? 0)) s2).
    assert (Rc : reach pc_four s (JBE Ldone :: LABEL Lbytesbetween1and255 :: pc_B) s3).
    { eapply reach_trans; [exact Rb|]. eapply reach_trans; [apply reach_next with Lbytesatleast256; cbn; now replace (r1 <? 256) with true by lia|].
      apply reach_exec. reflexivity. }
    destruct (N.eqb_spec r1 0) as [Z|Z].
    + exists s3. split; [|split; [exact SP1|split; [exact HS1|split; [|intros _; exact (base_key _ _ HB1)]]]].
      * eapply reach_trans; [exact Rc|]. apply reach_jump with Ldone; [|exact at_done]. cbn. rewrite Z. reflexivity.
      * replace len with (n + 256) by (unfold r1 in *; lia). exact HP1.
    + assert (I3 : Inv s3 n1 (b + 4) r1) by (destruct I2; now split).
      destruct (loopB (N.to_nat r1) s3 n1 (b + 4) r1 (Nat.le_refl _) I3 ltac:(lia)) as (s' & R' & E'). exists s'. split; [|exact E'].
      eapply reach_trans; [exact Rc|]. eapply reach_trans; [apply reach_next with Ldone; cbn; replace (r1 <? 0) with false by lia; now replace (r1 =? 0) with false by lia|].
      eapply reach_trans; [apply reach_exec with (s' := s3); reflexivity|]. exact R'.
Qed.

(** The beginning *)
Lemma key_word k n i : Pos k n -> (i < 8)%nat -> word_at k Key (ko + 4 * N.of_nat i) = le_word kb i.
Proof. intros [_ B] _. unfold word_at, le_word, kb, byte_at. cbv zeta. rewrite !B by discriminate. now rewrite !N.add_assoc. Qed.
Lemma nonce_word k n i : Pos k n -> (i < 2)%nat -> word_at k Nonce (no + 4 * N.of_nat i) = le_word nb i.
Proof. intros [_ B] _. unfold word_at, le_word, nb, byte_at. cbv zeta. rewrite !B by discriminate. now rewrite !N.add_assoc. Qed.
Lemma qv_nth l i : nth i l 0 < W64 -> qv l (2 * N.of_nat i) < W32 /\ qv l (2 * N.of_nat i + 1) < W32 /\ nth i l 0 = qv l (2 * N.of_nat i) + W32 * qv l (2 * N.of_nat i + 1).
Proof.
  intros H. unfold qv. cbv zeta. replace (2 * N.of_nat i / 2) with (N.of_nat i) by lia. replace ((2 * N.of_nat i + 1) / 2) with (N.of_nat i) by lia.
  replace (2 * N.of_nat i mod 2) with 0 by lia. replace ((2 * N.of_nat i + 1) mod 2) with 1 by lia. rewrite Nnat.Nat2N.id. change (0 =? 0) with true. change (1 =? 0) with false. cbv iota.
  unfold W32, W64 in *. change (2 ^ 32) with 4294967296. change (2 ^ 64) with 18446744073709551616 in H. lia.
Qed.
Lemma sq_ok s w i : (i < 7)%nat -> nth i saved 0 < W64 -> w = VI (nth i saved 0) ->
  svrel (offf sp ko no 0 0) (g s) (Dag [] Z0) (rho s 0 0 saved) (SQ (322 + 2 * N.of_nat i) (322 + (2 * N.of_nat i + 1))) w.
Proof.
  intros Hi H ->. destruct (qv_nth _ _ H) as (A & B & C). cbn [svrel]. unfold has. cbn [nx]. rewrite !rho_q. repeat split; try assumption; try (unfold Z0; lia). now f_equal.
Qed.
Lemma spread_at i l : (i < 16)%nat -> i <> 8%nat -> i <> 9%nat -> (l < 4)%nat ->
  nth_error (evs 0 16 ++ e_spread ++ evs 72 48) (N.to_nat (nth i sidx 0) + l) = Some (EV (nth i bidx 0)).
Proof.
  intros Hi H8 H9 Hl. do 16 (destruct i as [|i]; [try (exfalso; lia); do 4 (destruct l as [|l]; [reflexivity|]); lia|]). lia.
Qed.

Definition pc_save : list instr := c_save ++ c_cmp0 ++ c_start ++ c_init ++ c_cmp256 ++ pc_spread.
Lemma body s : (forall i, nth i saved 0 < W64) -> g s RSP = VP Stack sp -> g s R11 = VI (nth 0 saved 0) -> g s R12 = VI (nth 1 saved 0) -> g s R13 = VI (nth 2 saved 0) ->
  g s R14 = VI (nth 3 saved 0) -> g s R15 = VI (nth 4 saved 0) -> g s RBX = VI (nth 5 saved 0) -> g s RBP = VI (nth 6 saved 0) ->
  g s RDI = VP Out co -> g s RSI = VP In io -> g s RDX = VI len -> g s RCX = VP Nonce no -> g s R8 = VP Key ko -> m s = k0 ->
  exists s', reach pc_save s pc_done s' /\ End s'.
Proof.
  intros Hsv Hg H11 H12 H13 H14 H15 Hbx Hbp Hdi Hsi Hdx Hcx H8 Hm.
  assert (Hgs : forall r0 v, List.In (r0, v) g_save -> svrel (offf sp ko no 0 0) (g s) (Dag [] Z0) (rho s 0 0 saved) v (g s r0)).
  { intros r0 v H. unfold g_save in H. cbn [keep map app List.In] in H.
    destruct H as [H|[H|[H|[H|[H|[H|[H|[H|H]]]]]]]]; [injection H as <- <-..|].
    - cbn [svrel offf]. now rewrite N.add_0_r.
    - exact (sq_ok s _ 0 ltac:(lia) (Hsv _) H11).
    - exact (sq_ok s _ 1 ltac:(lia) (Hsv _) H12).
    - exact (sq_ok s _ 2 ltac:(lia) (Hsv _) H13).
    - exact (sq_ok s _ 3 ltac:(lia) (Hsv _) H14).
    - exact (sq_ok s _ 4 ltac:(lia) (Hsv _) H15).
    - exact (sq_ok s _ 5 ltac:(lia) (Hsv _) Hbx).
    - exact (sq_ok s _ 6 ltac:(lia) (Hsv _) Hbp).
    - repeat destruct H as [H|H]; try (injection H as <- <-; reflexivity). destruct H. }
  destruct (seg sp ko no size Hsp Hst 0 0 0 0 false _ c_save r_save 10 s 0 0 saved save_run (Nat.le_0_l _) (Nat.le_0_l _) (Nat.le_0_l _)
    ltac:(intros i Hi; inversion Hi) (or_intror eq_refl) (or_intror eq_refl) ltac:(discriminate) Hgs) as (s1 & E & F & A & _ & C & _).
  pose proof (fun j e => A Stack 120%nat _ j e save_words) as A'.
  reg C save_regs 0%nat. reg C save_regs 1%nat. reg C save_regs 2%nat. reg C save_regs 3%nat. reg C save_regs 4%nat. reg C save_regs 5%nat.
  rewrite Hdi in K0. rewrite Hsi in K1. rewrite Hdx in K2. rewrite Hcx in K3. rewrite H8 in K4.
  assert (HS1 : SavedW (m s1)).
  { intros j Hj. assert (Ej : nth_error (evs 0 88 ++ evs 322 14 ++ evs 102 18) (88 + N.to_nat j) = Some (EV (322 + j))).
    { clear - Hj. replace j with (N.of_nat (N.to_nat j)) at 2 by lia. assert (H : (N.to_nat j < 14)%nat) by lia. set (i := N.to_nat j) in *. clearbody i.
      do 14 (destruct i as [|i]; [reflexivity|]). lia. }
    replace (88 + j) with (N.of_nat (88 + N.to_nat j)) by lia. refine (eq_trans (A' _ _ Ej ltac:(lia)) _). apply rho_q. }
  assert (HP1 : Pos (m s1) 0).
  { apply (pos_local (m s)); [eapply local_frame; eassumption|]. rewrite Hm. split; [intros j Hj; exfalso; lia|reflexivity]. }
  clear A A' C Hgs F.
  set (s2 := set_f (Some (len <? 0)) (Some (len =? 0)) s1).
  assert (R2 : reach pc_save s (JBE Ldone :: c_start ++ c_init ++ c_cmp256 ++ pc_spread) s2).
  { unfold pc_save. eapply reach_trans; [now apply reach_seq with (1 := E)|]. unfold c_cmp0. cbn [app]. apply reach_exec. cbn. unfold int. now rewrite K2. }
  destruct (N.eqb_spec len 0) as [Z|Z].
  { exists s2. split; [|split; [exact K|split; [exact HS1|split; [|lia]]]].
    - eapply reach_trans; [exact R2|]. apply reach_jump with Ldone; [|exact at_done]. cbn. rewrite Z. reflexivity.
    - rewrite Z. exact HP1. }
  assert (R2' : reach pc_save s (c_init ++ c_cmp256 ++ pc_spread) s2).
  { eapply reach_trans; [exact R2|]. eapply reach_trans; [apply reach_next with Ldone; cbn; replace (len <? 0) with false by lia; now replace (len =? 0) with false by lia|].
    unfold c_start. cbn [app]. apply reach_exec. reflexivity. }
  assert (Hgs : forall r0 v, List.In (r0, v) ([(RSP, SP Stack 0); (R10, SP Key 0); (RDX, SP Nonce 0)] ++ keep [R9; RDI; RSI]) ->
    svrel (offf sp ko no 0 0) (g s2) (Dag [] Z0) (rho s2 0 0 []) v (g s2 r0)).
  { intros r0 v H. cbn [keep map app List.In] in H. destruct H as [H|[H|[H|[H|[H|[H|[]]]]]]]; injection H as <- <-; cbn [svrel offf]; try reflexivity;
    rewrite N.add_0_r; assumption. }
  destruct (seg sp ko no size Hsp Hst 0 0 0 0 true _ c_init r_init 10 s2 0 0 [] init_run (Nat.le_0_l _) (Nat.le_0_l _) (Nat.le_0_l _)
    ltac:(intros i Hi; inversion Hi) (or_intror eq_refl) (or_intror eq_refl) (fun _ => conj Hkey Hnon) Hgs) as (s3 & E3 & F3 & A3 & _ & C3 & _).
  pose proof (fun j e => A3 Stack 120%nat _ j e init_words) as A3'.
  reg C3 init_regs 0%nat. reg C3 init_regs 1%nat. reg C3 init_regs 2%nat. reg C3 init_regs 3%nat.
  assert (HB3 : BaseW (m s3) 0).
  { assert (Kw : forall i, (i < 8)%nat -> rho s2 0 0 [] (312 + N.of_nat i) = le_word kb i) by (intros i Hi; rewrite rho_key by lia; exact (key_word (m s1) 0 i HP1 Hi)).
    assert (Nw : forall i, (i < 2)%nat -> rho s2 0 0 [] (320 + N.of_nat i) = le_word nb i) by (intros i Hi; rewrite rho_nonce by lia; exact (nonce_word (m s1) 0 i HP1 Hi)).
    intros i Hi. destruct i as [|[|[|[|[|[|[|[|[|[|[|[|[|[|[|[|i]]]]]]]]]]]]]]]]; [..|lia]; cbn [nth bidx st0 start].
    - exact (A3' 12%nat _ eq_refl ltac:(lia)).
    - exact (eq_trans (A3' 1%nat _ eq_refl ltac:(lia)) (Kw 0%nat ltac:(lia))).
    - exact (eq_trans (A3' 6%nat _ eq_refl ltac:(lia)) (Kw 1%nat ltac:(lia))).
    - exact (eq_trans (A3' 11%nat _ eq_refl ltac:(lia)) (Kw 2%nat ltac:(lia))).
    - exact (eq_trans (A3' 8%nat _ eq_refl ltac:(lia)) (Kw 3%nat ltac:(lia))).
    - exact (A3' 13%nat _ eq_refl ltac:(lia)).
    - exact (eq_trans (A3' 2%nat _ eq_refl ltac:(lia)) (Nw 0%nat ltac:(lia))).
    - exact (eq_trans (A3' 7%nat _ eq_refl ltac:(lia)) (Nw 1%nat ltac:(lia))).
    - exact (A3' 4%nat _ eq_refl ltac:(lia)).
    - exact (A3' 9%nat _ eq_refl ltac:(lia)).
    - exact (A3' 14%nat _ eq_refl ltac:(lia)).
    - exact (eq_trans (A3' 3%nat _ eq_refl ltac:(lia)) (Kw 4%nat ltac:(lia))).
    - exact (eq_trans (A3' 0%nat _ eq_refl ltac:(lia)) (Kw 5%nat ltac:(lia))).
    - exact (eq_trans (A3' 5%nat _ eq_refl ltac:(lia)) (Kw 6%nat ltac:(lia))).
    - exact (eq_trans (A3' 10%nat _ eq_refl ltac:(lia)) (Kw 7%nat ltac:(lia))).
    - exact (A3' 15%nat _ eq_refl ltac:(lia)). }
  assert (HS3 : SavedW (m s3)).
  { apply (saved_same (m s2)); [|exact HS1]. apply (same_part 16 104); [|lia|lia]. apply (same_words (m s3) s2 _ _ _ _ 16 104 A3'); [vm_compute; reflexivity|lia]. }
  assert (HP3 : Pos (m s3) 0) by (apply (pos_local (m s2)); [eapply local_frame; eassumption|exact HP1]).
  set (s4 := set_f (Some (len <? 256)) (Some (len =? 256)) s3).
  assert (D9 : g s3 R9 = VI len) by (rewrite K8; exact K2).
  assert (R4 : reach pc_save s (JB Lbytesbetween1and255 :: pc_spread) s4).
  { eapply reach_trans; [exact R2'|]. eapply reach_trans; [now apply reach_seq with (1 := E3)|]. unfold c_cmp256. cbn [app]. apply reach_exec. cbn. unfold int. now rewrite D9. }
  assert (I4 : Inv s4 0 0 len).
  { split; try assumption; try reflexivity; try (rewrite N.add_0_r); try (cbn; assumption).
    - cbn. rewrite K6. exact K0.
    - cbn. rewrite K7. exact K1. }
  destruct (N.ltb_spec len 256) as [L|L].
  { destruct (loopB (N.to_nat len) s4 0 0 len (Nat.le_refl _) I4 ltac:(lia)) as (s' & R' & E'). exists s'. split; [|exact E'].
    eapply reach_trans; [exact R4|]. eapply reach_trans; [apply reach_jump with Lbytesbetween1and255; [cbn; now replace (len <? 256) with true by lia|exact at_B]|]. exact R'. }
  assert (Hgs4 : forall r0 v, List.In (r0, v) ([(RSP, SP Stack 0)] ++ keep [R9; RDI; RSI]) ->
    svrel (offf sp ko no 0 0) (g s4) (Dag [] Z0) (rho s4 0 0 []) v (g s4 r0)).
  { intros r0 v H. cbn [keep map app List.In] in H. destruct H as [H|[H|[H|[H|[]]]]]; injection H as <- <-; cbn [svrel offf]; try reflexivity.
    rewrite N.add_0_r. exact (iSP _ _ _ _ I4). }
  destruct (seg sp ko no size Hsp Hst 0 0 0 0 false _ c_spread r_spread 10 s4 0 0 [] spread_run (Nat.le_0_l _) (Nat.le_0_l _) (Nat.le_0_l _)
    ltac:(intros i Hi; inversion Hi) (or_intror eq_refl) (or_intror eq_refl) ltac:(discriminate) Hgs4) as (s5 & E5 & F5 & A5 & _ & C5 & _).
  pose proof (fun j e => A5 Stack 120%nat _ j e spread_words) as A5'.
  reg C5 spread_regs 0%nat. reg C5 spread_regs 1%nat. reg C5 spread_regs 2%nat. reg C5 spread_regs 3%nat.
  assert (HSp5 : SpreadW (m s5)).
  { intros i Hi E8 E9 l Hl. pose proof (spread_at i (N.to_nat l) Hi E8 E9 ltac:(lia)) as Es. pose proof (sidx_bounds i Hi) as (Z1 & Z2 & _).
    rewrite <- (HB3 i Hi). replace (nth i sidx 0 + l) with (N.of_nat (N.to_nat (nth i sidx 0) + N.to_nat l)) by lia.
    refine (eq_trans (A5' _ _ Es ltac:(lia)) _). cbn [eval]. rewrite rho_st; [reflexivity|]. pose proof (bidx_below i Hi). lia. }
  assert (I5 : Inv s5 0 0 len).
  { split; try assumption; try reflexivity.
    - rewrite K10. exact (iDI _ _ _ _ I4).
    - rewrite K11. exact (iSI _ _ _ _ I4).
    - rewrite K12. exact D9.
    - apply (base_same (m s4)); [|exact HB3]. apply (same_words (m s5) s4 _ _ _ _ 0 16 A5'); [vm_compute; reflexivity|lia].
    - apply (saved_same (m s4)); [|exact HS3]. apply (same_part 72 48); [|lia|lia]. apply (same_words (m s5) s4 _ _ _ _ 72 48 A5'); [vm_compute; reflexivity|lia].
    - apply (pos_local (m s4)); [eapply local_frame; eassumption|exact HP3]. }
  destruct (loop256 (N.to_nat len) s5 0 0 len (Nat.le_refl _) I5 L HSp5) as (s' & R' & E'). exists s'. split; [|exact E'].
  eapply reach_trans; [exact R4|]. eapply reach_trans; [apply reach_next with Lbytesbetween1and255; cbn; now replace (len <? 256) with false by lia|].
  unfold pc_spread. eapply reach_trans; [now apply reach_seq with (1 := E5)|]. unfold c_at256. cbn [app]. eapply reach_trans; [apply reach_exec with (s' := s5); reflexivity|]. exact R'.
Qed.
End Program.
