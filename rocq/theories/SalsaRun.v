(** Runs of the program; segments from any state *)
From Verif Require Import Base SalsaModel SalsaSpec SalsaSym SalsaSound SalsaSeg.
Local Open Scope N_scope.

Section Reach.
Context (size : object -> N) (p : list instr).
Definition reach (pc : list instr) (s : st) (pc' : list instr) (s' : st) : Prop :=
  exists n, forall k, run size (n + k) p pc s = run size k p pc' s'.
Lemma reach_refl pc s : reach pc s pc s.
Proof. now exists 0%nat. Qed.
Lemma reach_trans a s b s1 c s2 : reach a s b s1 -> reach b s1 c s2 -> reach a s c s2.
Proof. intros [n Hn] [k Hk]. exists (n + k)%nat. intros j. now rewrite <- Nat.add_assoc, Hn, Hk. Qed.
Lemma reach_step pc s pc' s' : step size p pc s = More pc' s' -> reach pc s pc' s'.
Proof. intros H. exists 1%nat. intros k. cbn [run Nat.add]. now rewrite H. Qed.
Lemma reach_exec i r s s' : exec size i s = Some s' -> reach (i :: r) s r s'.
Proof. intros H. apply reach_step. unfold step. destruct i; try discriminate H; cbn [branch]; now rewrite H. Qed.
Lemma reach_seq l r s s' : seq size l s = Some s' -> reach (l ++ r) s r s'.
Proof.
  revert s. induction l as [|i l IH]; intros s H; cbn [seq] in H; [injection H as <-; apply reach_refl|].
  destruct (exec size i s) as [s1|] eqn:E; [cbn [obind] in H|discriminate H]. eapply reach_trans; [now apply reach_exec with (1 := E)|now apply IH].
Qed.
Lemma reach_jump i r s l r' : branch i s = Some (l, Some true) -> after l p = Some r' -> reach (i :: r) s r' s.
Proof. intros H A. apply reach_step. unfold step. destruct i; try discriminate H; rewrite H; now rewrite A. Qed.
Lemma reach_next i r s l : branch i s = Some (l, Some false) -> reach (i :: r) s r s.
Proof. intros H. apply reach_step. unfold step. destruct i; try discriminate H; now rewrite H. Qed.
End Reach.

(** Instructions that only change xmm registers *)
Definition xop (i : instr) (y : nat -> quad N) : option (nat -> quad N) :=
  let set d q := Some (fun j => if Nat.eqb j d then q else y j) in
  match i with
  | MOVX a d => set d (y a)
  | PSHUFD n a d => set d (shuffle n (y a))
  | PADDD a d => set d (qmap2 add32 (y d) (y a))
  | PXOR a d => set d (qmap2 N.lxor (y d) (y a))
  | PSLLD n d => set d (qmap (shl32 n) (y d))
  | PSRLD n d => set d (qmap (shr32 n) (y d))
  | _ => None
  end.
Fixpoint xops (l : list instr) (y : nat -> quad N) : option (nat -> quad N) :=
  match l with [] => Some y | i :: r => match xop i y with Some y => xops r y | None => None end end.
Definition with_xs (y : nat -> quad N) (s : st) : st := St (g s) y (m s) (cf s) (zf s).
Lemma xop_exec size i s y : xop i (x s) = Some y -> exec size i s = Some (with_xs y s).
Proof. destruct i; cbn; intros H; try discriminate H; injection H as <-; reflexivity. Qed.
Lemma xops_seq size l s y : xops l (x s) = Some y -> seq size l s = Some (with_xs y s).
Proof.
  revert s. induction l as [|i l IH]; intros s H; cbn [xops seq] in *; [injection H as <-; now destruct s|].
  destruct (xop i (x s)) as [y1|] eqn:E; [|discriminate H]. rewrite (xop_exec size _ _ _ E). cbn [obind]. now rewrite IH.
Qed.
Lemma xops_app l1 l2 y : xops (l1 ++ l2) y = match xops l1 y with Some y => xops l2 y | None => None end.
Proof. revert y. induction l1 as [|i l IH]; intros y; cbn [xops app]; [reflexivity|]. destruct (xop i y); [apply IH|reflexivity]. Qed.
Definition is_xop (i : instr) : bool := match xop i (fun _ => Quad 0 0 0 0) with Some _ => true | None => false end.
Lemma xops_some l : forallb is_xop l = true -> forall y, exists y', xops l y = Some y'.
Proof.
  induction l as [|i l IH]; intros H y; cbn [xops forallb] in *; [eauto|]. apply andb_true_iff in H. destruct H as [H1 H2].
  destruct (xop i y) as [y1|] eqn:E; [now apply IH|]. destruct i; cbn in H1, E; discriminate.
Qed.
(** xmm7 is cleared but never read *)
Definition no7 (i : instr) : bool :=
  match i with
  | PXOR 7 7 => true
  | MOVX a _ | PSHUFD _ a _ => negb (Nat.eqb a 7)
  | PADDD a d | PXOR a d => negb (Nat.eqb a 7) && negb (Nat.eqb d 7)
  | PSLLD _ d | PSRLD _ d => negb (Nat.eqb d 7)
  | _ => false
  end.
Lemma xop_ext i y1 y2 z1 z2 : no7 i = true -> (forall j, j <> 7%nat -> y1 j = y2 j) -> xop i y1 = Some z1 -> xop i y2 = Some z2 ->
  forall j, j <> 7%nat -> z1 j = z2 j.
Proof.
  intros H E H1 H2 j Hj.
  assert (P7 : i = PXOR 7 7 \/ i <> PXOR 7 7) by (destruct i; try (right; discriminate); destruct (Nat.eq_dec s 7), (Nat.eq_dec d 7); subst; auto; right; congruence).
  destruct P7 as [->|P7].
  - cbn in H1, H2. injection H1 as <-. injection H2 as <-. destruct (Nat.eqb_spec j 7); [now elim Hj|now apply E].
  - assert (H' : match i with MOVX a _ | PSHUFD _ a _ => a <> 7%nat | PADDD a d | PXOR a d => a <> 7%nat /\ d <> 7%nat | PSLLD _ d | PSRLD _ d => d <> 7%nat | _ => False end).
    { destruct i; cbn in H1; try discriminate H1; unfold no7 in H; rewrite ?andb_true_iff, ?negb_true_iff, ?Nat.eqb_neq in H; try exact H.
      do 8 (destruct s as [|s]; [do 8 (destruct d as [|d]; [cbn in H; first [discriminate H|now elim P7|lia]|]); cbn in H; first [discriminate H|lia]|]). lia. }
    destruct i; cbn in H1, H2; try discriminate H1; injection H1 as <-; injection H2 as <-; destruct (Nat.eqb j _); try (now apply E);
      try destruct H' as [Ha Hd]; rewrite ?E by assumption; reflexivity.
Qed.
Lemma xops_ext l y1 y2 z1 z2 : forallb no7 l = true -> (forall j, j <> 7%nat -> y1 j = y2 j) -> xops l y1 = Some z1 -> xops l y2 = Some z2 ->
  forall j, j <> 7%nat -> z1 j = z2 j.
Proof.
  revert y1 y2. induction l as [|i l IH]; intros y1 y2 H E H1 H2; cbn [xops forallb] in *; [injection H1 as <-; injection H2 as <-; exact E|].
  apply andb_true_iff in H. destruct H as [Hi Hl].
  destruct (xop i y1) as [u1|] eqn:E1; [|discriminate H1]. destruct (xop i y2) as [u2|] eqn:E2; [|discriminate H2].
  exact (IH u1 u2 Hl (xop_ext _ _ _ _ _ Hi E E1 E2) H1 H2).
Qed.

(** Words of memory *)
Definition qv (l : list N) (j : N) : N := let v := nth (N.to_nat (j / 2)) l 0 in if j mod 2 =? 0 then v mod W32 else v / W32.
Definition qok (q : quad N) : Prop := match q with Quad a b c d => a < W32 /\ b < W32 /\ c < W32 /\ d < W32 end.
Definition xwf (s : st) (j : N) : N := lane (x s (N.to_nat (j / 4))) (j mod 4).
Section Words.
Context (sp ko no : N).
Definition wd (k : mem) (i : N) : N := word_at k Stack (sp + 4 * i).
Definition ws (k : mem) : list N := map (fun j => wd k (N.of_nat j)) (List.seq 0 120).
Definition rho (s : st) (ia ca : N) (ql : list N) : N -> N :=
  rho0 (ws (m s)) (xwf s) (fun j => word_at (m s) In (ia + 4 * j)) (fun j => word_at (m s) Out (ca + 4 * j))
    (fun j => word_at (m s) Key (ko + 4 * j)) (fun j => word_at (m s) Nonce (no + 4 * j)) (qv ql).
Lemma ws_nth k i : i < 120 -> nth (N.to_nat i) (ws k) 0 = wd k i.
Proof.
  intros H. unfold ws. rewrite nth_indep with (d' := wd k (N.of_nat 0)) by (rewrite map_length, seq_length; lia).
  rewrite map_nth with (f := fun j => wd k (N.of_nat j)), seq_nth by lia. f_equal. lia.
Qed.
Lemma rho_st s ia ca ql i : i < 120 -> rho s ia ca ql i = wd (m s) i.
Proof. intros H. unfold rho, rho0. replace (i <? 120) with true by lia. now apply ws_nth. Qed.
Lemma rho_x s ia ca ql r l : (r < 16)%nat -> l < 4 -> rho s ia ca ql (120 + 4 * N.of_nat r + l) = lane (x s r) l.
Proof.
  intros H Hl. unfold rho, rho0. replace (120 + 4 * N.of_nat r + l <? 120) with false by lia. replace (120 + 4 * N.of_nat r + l <? 184) with true by lia.
  unfold xwf. replace ((120 + 4 * N.of_nat r + l - 120) / 4) with (N.of_nat r) by lia. replace ((120 + 4 * N.of_nat r + l - 120) mod 4) with l by lia.
  now rewrite Nnat.Nat2N.id.
Qed.
Lemma rho_in s ia ca ql i : i < 64 -> rho s ia ca ql (184 + i) = word_at (m s) In (ia + 4 * i).
Proof.
  intros H. unfold rho, rho0. replace (184 + i <? 120) with false by lia. replace (184 + i <? 184) with false by lia. replace (184 + i <? 248) with true by lia.
  now replace (184 + i - 184) with i by lia.
Qed.
Lemma rho_key s ia ca ql i : i < 8 -> rho s ia ca ql (312 + i) = word_at (m s) Key (ko + 4 * i).
Proof.
  intros H. unfold rho, rho0. replace (312 + i <? 120) with false by lia. replace (312 + i <? 184) with false by lia. replace (312 + i <? 248) with false by lia.
  replace (312 + i <? 312) with false by lia. replace (312 + i <? 320) with true by lia. now replace (312 + i - 312) with i by lia.
Qed.
Lemma rho_nonce s ia ca ql i : i < 2 -> rho s ia ca ql (320 + i) = word_at (m s) Nonce (no + 4 * i).
Proof.
  intros H. unfold rho, rho0. replace (320 + i <? 120) with false by lia. replace (320 + i <? 184) with false by lia. replace (320 + i <? 248) with false by lia.
  replace (320 + i <? 312) with false by lia. replace (320 + i <? 320) with false by lia. replace (320 + i <? 322) with true by lia.
  now replace (320 + i - 320) with i by lia.
Qed.
Lemma rho_q s ia ca ql i : rho s ia ca ql (322 + i) = qv ql i.
Proof.
  unfold rho, rho0. replace (322 + i <? 120) with false by lia. replace (322 + i <? 184) with false by lia. replace (322 + i <? 248) with false by lia.
  replace (322 + i <? 312) with false by lia. replace (322 + i <? 320) with false by lia. replace (322 + i <? 322) with false by lia.
  now replace (322 + i - 322) with i by lia.
Qed.

Context (size : object -> N) (Hsp : sp mod 16 = 0) (Hst : sp + 480 <= size Stack).
Lemma load_word k o a : a + 4 <= size o -> load size k o a = Some (word_at k o a).
Proof. intros H. unfold load. now replace (a + 4 <=? size o) with true by lia. Qed.
Lemma seg W nx_ nin nout kn gs l S' n s ia ca ql :
  symrun (winf W) l (S0 nx_ nin nout kn gs) = Some S' ->
  (nx_ <= 16)%nat -> (nin <= 64)%nat -> (nout <= 64)%nat ->
  (forall r, (r < nx_)%nat -> qok (x s r)) ->
  ia + 4 * N.of_nat nin <= size In \/ nin = 0%nat -> ca + 4 * N.of_nat nout <= size Out \/ nout = 0%nat ->
  (kn = true -> ko + 32 <= size Key /\ no + 8 <= size Nonce) ->
  (forall r v, List.In (r, v) gs -> svrel (offf sp ko no ia ca) (g s) (Dag [] Z0) (rho s ia ca ql) v (g s r)) ->
  exists s', seq size l s = Some s' /\ frame (offf sp ko no ia ca) (winf W) (m s) (m s') /\
    (forall o c L j e, words_of n S' o c = Some L -> nth_error L j = Some e -> (j < c)%nat ->
       word_at (m s') o (offf sp ko no ia ca o + 4 * N.of_nat j) = eval (rho s ia ca ql) e) /\
    (forall r q, xsum n S' r = Some q -> x s' r = qmap (eval (rho s ia ca ql)) q) /\
    (forall r v, gsum n S' r = Some v -> regsem sp ko no ia ca (g s) (rho s ia ca ql) v (g s' r)) /\
    exists rho', R size (offf sp ko no ia ca) (g s) S' rho' s' /\ ext (Dag [] Z0) (dg S') (rho s ia ca ql) rho'.
Proof.
  intros Hrun H1 H2 H3 Hx Hin Hout Hkn Hg.
  destruct (segment size sp ko no Hsp ia ca (ws (m s)) (xwf s) (fun j => word_at (m s) In (ia + 4 * j)) (fun j => word_at (m s) Out (ca + 4 * j))
    (fun j => word_at (m s) Key (ko + 4 * j)) (fun j => word_at (m s) Nonce (no + 4 * j)) (qv ql) W nx_ nin nout kn gs l S' n s Hrun) as (s' & E & F & A & B & C & D); auto.
  - intros j Hj. rewrite Nnat.Nat2N.id. rewrite load_word by lia. f_equal. rewrite <- (Nnat.Nat2N.id j) at 2. symmetry. apply ws_nth. lia.
  - intros r Hr. cbv zeta. specialize (Hx r Hr).
    assert (E : forall l0, l0 < 4 -> xwf s (4 * N.of_nat r + l0) = lane (x s r) l0).
    { intros l0 Hl. unfold xwf. replace ((4 * N.of_nat r + l0) / 4) with (N.of_nat r) by lia. replace ((4 * N.of_nat r + l0) mod 4) with l0 by lia. now rewrite Nnat.Nat2N.id. }
    rewrite <- (N.add_0_r (4 * N.of_nat r)) at 1 5. rewrite !E by lia. destruct (x s r) as [a b c d]. cbn in *. tauto.
  - intros j Hj. apply load_word. destruct Hin as [Hin|Hin]; lia.
  - intros j Hj. apply load_word. destruct Hout as [Hout|Hout]; lia.
  - intros K. destruct (Hkn K) as [K1 K2]. split; intros j Hj; apply load_word; lia.
  - exists s'. split; [exact E|]. split; [exact F|]. split; [|split; [exact B|split; [exact C|exact D]]].
    intros o c L j e HL He Hj. specialize (A o c L HL j Hj). cbv beta in A. rewrite Nnat.Nat2N.id in A. unfold load in A.
    destruct (offf sp ko no ia ca o + 4 * N.of_nat j + 4 <=? size o); [|discriminate A]. injection A as A. rewrite A.
    apply nth_error_nth with (d := 0). now rewrite nth_error_map, He.
Qed.
End Words.

(** * The results of the segments *)
Definition sidx : list N := [28; 44; 56; 68; 60; 16; 32; 48; 72; 76; 20; 36; 40; 52; 64; 24]. (* the four copies of word i *)
Definition bidx : list N := [12; 1; 6; 11; 8; 13; 2; 7; 4; 9; 14; 3; 0; 5; 10; 15]. (* word i *)
Definition order1 : list nat := [12; 7; 10; 4; 14; 0; 5; 8; 15; 11; 1; 6; 13; 9; 3; 2]%nat. (* the register of word i in the loop for four blocks *)
Definition order2 : list (nat * N) :=
  [(0%nat, 0); (1%nat, 1); (2%nat, 2); (3%nat, 3); (3%nat, 0); (0%nat, 1); (1%nat, 2); (2%nat, 3);
   (2%nat, 0); (3%nat, 1); (0%nat, 2); (1%nat, 3); (1%nat, 0); (2%nat, 1); (3%nat, 2); (0%nat, 3)].
Definition get (o : option sst) : sst := match o with Some r => r | None => Sst (Dag [] 0) [] [] [] end.
Definition evs (a : nat) (c : nat) : list expr := map (fun i => EV (N.of_nat i)) (List.seq a c).
Definition keep (rs : list reg) : list (reg * sval) := map (fun r => (r, SR r)) rs.

Lemma regs_at {A B : Type} (f : A -> B) l vs i r v : map f l = vs -> nth_error l i = Some r -> nth_error vs i = Some v -> f r = v.
Proof. intros <- H1 H2. rewrite nth_error_map, H1 in H2. now injection H2. Qed.

Definition g_save := [(RSP, SP Stack 0); (R11, SQ 322 323); (R12, SQ 324 325); (R13, SQ 326 327); (R14, SQ 328 329); (R15, SQ 330 331);
  (RBX, SQ 332 333); (RBP, SQ 334 335)] ++ keep [RDI; RSI; RDX; RCX; R8].
Definition i_save := S0 0 0 0 false g_save.
Definition r_save := get (symrun (winf 0) c_save i_save).
Lemma save_run : symrun (winf 0) c_save i_save = Some r_save. Proof. vm_compute. reflexivity. Qed.
Lemma save_words : words_of 10 r_save Stack 120 = Some (evs 0 88 ++ evs 322 14 ++ evs 102 18). Proof. vm_compute. reflexivity. Qed.
Lemma save_regs : map (gsum 10 r_save) [RSP; RDI; RSI; R9; RDX; R10] = [Some (GP Stack 0); Some (GR RDI); Some (GR RSI); Some (GR RDX); Some (GR RCX); Some (GR R8)].
Proof. vm_compute. reflexivity. Qed.

Definition i_init := S0 0 0 0 true ([(RSP, SP Stack 0); (R10, SP Key 0); (RDX, SP Nonce 0)] ++ keep [R9; RDI; RSI]).
Definition r_init := get (symrun (winf 0) c_init i_init).
Definition e_init : list expr := [EV 317; EV 312; EV 320; EV 316; EC 0; EV 318; EV 313; EV 321; EV 315; EC 0; EV 319; EV 314; EC 1634760805; EC 857760878; EC 2036477234; EC 1797285236].
Lemma init_run : symrun (winf 0) c_init i_init = Some r_init. Proof. vm_compute. reflexivity. Qed.
Lemma init_words : words_of 10 r_init Stack 120 = Some (e_init ++ evs 16 104). Proof. vm_compute. reflexivity. Qed.
Lemma init_regs : map (gsum 10 r_init) [RSP; RDI; RSI; R9] = [Some (GP Stack 0); Some (GR RDI); Some (GR RSI); Some (GR R9)].
Proof. vm_compute. reflexivity. Qed.

Definition i_spread := S0 0 0 0 false ([(RSP, SP Stack 0)] ++ keep [R9; RDI; RSI]).
Definition r_spread := get (symrun (winf 0) c_spread i_spread).
Definition e_spread : list expr := concat (map (fun i => [EV i; EV i; EV i; EV i]) [13; 14; 15; 12; 2; 3; 0; 1; 7; 5; 6; 8; 10; 11]).
Lemma spread_run : symrun (winf 0) c_spread i_spread = Some r_spread. Proof. vm_compute. reflexivity. Qed.
Lemma spread_words : words_of 10 r_spread Stack 120 = Some (evs 0 16 ++ e_spread ++ evs 72 48). Proof. vm_compute. reflexivity. Qed.
Lemma spread_regs : map (gsum 10 r_spread) [RSP; RDI; RSI; R9] = [Some (GP Stack 0); Some (GR RDI); Some (GR RSI); Some (GR R9)].
Proof. vm_compute. reflexivity. Qed.

Definition i_four := S0 0 0 0 false ([(RSP, SP Stack 0); (R9, SQ 322 323)] ++ keep [RDI; RSI]).
Definition r_four := get (symrun (winf 0) c_four i_four).
Definition e_next (e : expr) : expr := EAdd64 (EAdd64 e (EC 1)) (EShl64 32 (EShr64 32 e)).
Definition e_n1 := EAdd64 (EAdd64 (EV 4) (EC 1)) (EShl64 32 (EV 9)).
Definition e_n2 := e_next e_n1.
Definition e_n3 := e_next e_n2.
Definition e_n4 := e_next e_n3.
Definition e_hi (e : expr) : expr := ELo (EShr64 32 e).
Lemma four_run : symrun (winf 0) c_four i_four = Some r_four. Proof. vm_compute. reflexivity. Qed.
Lemma four_words : words_of 50 r_four Stack 120 = Some (evs 0 4 ++ [ELo e_n4] ++ evs 5 4 ++ [e_hi e_n4] ++ evs 10 62 ++
  [EV 4; ELo e_n1; ELo e_n2; ELo e_n3; EV 9; e_hi e_n1; e_hi e_n2; e_hi e_n3] ++ evs 80 22 ++ [EV 322; EV 323] ++ evs 104 16).
Proof. vm_compute. reflexivity. Qed.
Lemma four_regs : map (gsum 10 r_four) [RSP; RDI; RSI] = [Some (GP Stack 0); Some (GR RDI); Some (GR RSI)].
Proof. vm_compute. reflexivity. Qed.

Definition i_load4 := S0 0 0 0 false ([(RSP, SP Stack 0)] ++ keep [RDX; RDI; RSI]).
Definition r_load4 := get (symrun (winf 0) c_load4 i_load4).
Lemma load4_run : symrun (winf 0) c_load4 i_load4 = Some r_load4. Proof. vm_compute. reflexivity. Qed.
Lemma load4_words : words_of 10 r_load4 Stack 120 = Some (evs 0 120). Proof. vm_compute. reflexivity. Qed.
Lemma load4_regs : map (gsum 10 r_load4) [RSP; RDX; RDI; RSI] = [Some (GP Stack 0); Some (GR RDX); Some (GR RDI); Some (GR RSI)].
Proof. vm_compute. reflexivity. Qed.
Lemma load4_x : map (xsum 10 r_load4) order1 = map (fun i => Some (Quad (EV i) (EV (i + 1)) (EV (i + 2)) (EV (i + 3)))) sidx.
Proof. vm_compute. reflexivity. Qed.

Definition i_loop1 := S0 16 0 0 false ([(RSP, SP Stack 0)] ++ keep [RDX; RDI; RSI]).
Definition r_loop1 := get (symrun (winf 0) c_loop1 i_loop1).
Lemma loop1_run : symrun (winf 0) c_loop1 i_loop1 = Some r_loop1. Proof. vm_compute. reflexivity. Qed.
Lemma loop1_regs : map (gsum 10 r_loop1) [RSP; RDX; RDI; RSI] = [Some (GP Stack 0); Some (GR RDX); Some (GR RDI); Some (GR RSI)].
Proof. vm_compute. reflexivity. Qed.
Lemma loop1_words : map (fun i => getm Stack (4 * N.of_nat i) (sm r_loop1)) (List.seq 0 80 ++ List.seq 88 32) = map (fun i => Some (N.of_nat i)) (List.seq 0 80 ++ List.seq 88 32).
Proof. vm_compute. reflexivity. Qed.
Definition getl (S : sst) (r : nat) (l : N) : N := match getx r (sx S) with Some q => lane q l | None => 0 end.
Definition lw1 (S : sst) (l : N) : list N := map (fun r => getl S r l) order1.
Lemma loop1_defined : forallb (fun r => match getx r (sx r_loop1) with Some _ => true | None => false end) (List.seq 0 16) = true.
Proof. vm_compute. reflexivity. Qed.
Definition rounds_ok (n : list (nat * nat * nat * N)) (S : sst) (y z : list N) : bool :=
  match smixes n y (dg S) with Some (y', _) => forallb (fun p => N.eqb (fst p) (snd p)) (combine y' z) && Nat.eqb (List.length y') 16 | None => false end.
Lemma loop1_rounds : forallb (fun l => rounds_ok double r_loop1 (lw1 i_loop1 l) (lw1 r_loop1 l)) [0; 1; 2; 3] = true.
Proof. vm_compute. reflexivity. Qed.

Definition i_out4 := S0 16 64 64 false [(RSP, SP Stack 0); (RDI, SP Out 0); (RSI, SP In 0)].
Definition r_out4 := get (symrun (winf 256) c_out4 i_out4).
Definition e_out4 (j : nat) : expr :=
  let i := Nat.modulo j 16 in let l := N.of_nat (Nat.div j 16) in
  EXor (EAdd (EV (nth i sidx 0 + l)) (EV (120 + 4 * N.of_nat (nth i order1 0%nat) + l))) (EV (184 + N.of_nat j)).
Lemma out4_run : symrun (winf 256) c_out4 i_out4 = Some r_out4. Proof. vm_compute. reflexivity. Qed.
Lemma out4_words : words_of 10 r_out4 Stack 120 = Some (evs 0 120). Proof. vm_compute. reflexivity. Qed.
Lemma out4_out : words_of 10 r_out4 Out 64 = Some (map e_out4 (List.seq 0 64)). Proof. vm_compute. reflexivity. Qed.
Lemma out4_regs : map (gsum 10 r_out4) [RSP; RDI; RSI; R9] = [Some (GP Stack 0); Some (GP Out 0); Some (GP In 0); Some (GQ (EV 102) (EV 103))].
Proof. vm_compute. reflexivity. Qed.

Definition i_load1 := S0 0 0 0 false ([(RSP, SP Stack 0); (R9, SQ 322 323)] ++ keep [RDX; RDI; RSI]).
Definition r_load1 := get (symrun (winf 0) c_load1 i_load1).
Lemma load1_run : symrun (winf 0) c_load1 i_load1 = Some r_load1. Proof. vm_compute. reflexivity. Qed.
Lemma load1_words : words_of 10 r_load1 Stack 120 = Some (evs 0 102 ++ [EV 322; EV 323] ++ evs 104 16). Proof. vm_compute. reflexivity. Qed.
Lemma load1_regs : map (gsum 10 r_load1) [RSP; RDX; RDI; RSI] = [Some (GP Stack 0); Some (GR RDX); Some (GR RDI); Some (GR RSI)].
Proof. vm_compute. reflexivity. Qed.
Lemma load1_x : map (xsum 10 r_load1) [0; 1; 2; 3; 4]%nat = map (fun i => Some (Quad (EV i) (EV (i + 1)) (EV (i + 2)) (EV (i + 3)))) [12; 0; 4; 8; 0].
Proof. vm_compute. reflexivity. Qed.

Definition i_loop2 := S0 4 0 0 false [].
Definition c_loop2 := MOVX 1 4 :: MOVX 0 7 :: c_loop2a ++ c_loop2b.
Definition r_loop2 := get (symrun (winf 0) c_loop2 i_loop2).
Definition lw2 (S : sst) : list N := map (fun p => getl S (fst p) (snd p)) order2.
Lemma loop2_run : symrun (winf 0) c_loop2 i_loop2 = Some r_loop2. Proof. vm_compute. reflexivity. Qed.
Lemma loop2_defined : forallb (fun r => match getx r (sx r_loop2) with Some _ => true | None => false end) (List.seq 0 5) = true.
Proof. vm_compute. reflexivity. Qed.
Lemma loop2_copy : getx 4 (sx r_loop2) = getx 1 (sx r_loop2). Proof. vm_compute. reflexivity. Qed.
Lemma loop2_rounds : rounds_ok (double ++ double) r_loop2 (lw2 i_loop2) (lw2 r_loop2) = true. Proof. vm_compute. reflexivity. Qed.
Lemma loop2_no7 : forallb no7 (c_loop2a ++ c_loop2b) = true. Proof. vm_compute. reflexivity. Qed.
Lemma loop2_xops : forallb is_xop (c_loop2a ++ c_loop2b) = true. Proof. vm_compute. reflexivity. Qed.

Definition e_out1 (base : N) (i : nat) : expr :=
  let '(r, l) := nth i order2 (0%nat, 0) in EXor (EAdd (EV (nth i bidx 0)) (EV (120 + 4 * N.of_nat r + l))) (EV (base + N.of_nat i)).
Definition i_outa := S0 4 16 16 false [(RSP, SP Stack 0); (RDI, SP Out 0); (RSI, SP In 0)].
Definition r_outa := get (symrun (winf 64) c_out1 i_outa).
Lemma outa_run : symrun (winf 64) c_out1 i_outa = Some r_outa. Proof. vm_compute. reflexivity. Qed.
Lemma outa_words : words_of 10 r_outa Stack 120 = Some (evs 0 4 ++ [ELo e_n1] ++ evs 5 4 ++ [e_hi e_n1] ++ evs 10 110). Proof. vm_compute. reflexivity. Qed.
Lemma outa_out : words_of 10 r_outa Out 16 = Some (map (e_out1 184) (List.seq 0 16)). Proof. vm_compute. reflexivity. Qed.
Lemma outa_regs : map (gsum 10 r_outa) [RSP; RDI; RSI; R9] = [Some (GP Stack 0); Some (GP Out 0); Some (GP In 0); Some (GQ (EV 102) (EV 103))].
Proof. vm_compute. reflexivity. Qed.
Definition i_outb := S0 4 0 0 false ([(RSP, SP Stack 0); (RDI, SP Stack 416); (RSI, SP Stack 416)] ++ keep [RDX]).
Definition r_outb := get (symrun (winf 0) c_out1 i_outb).
Lemma outb_run : symrun (winf 0) c_out1 i_outb = Some r_outb. Proof. vm_compute. reflexivity. Qed.
Lemma outb_words : words_of 10 r_outb Stack 120 = Some (evs 0 4 ++ [ELo e_n1] ++ evs 5 4 ++ [e_hi e_n1] ++ evs 10 94 ++ map (e_out1 104) (List.seq 0 16)).
Proof. vm_compute. reflexivity. Qed.
Lemma outb_regs : map (gsum 10 r_outb) [RSP; RDI; RSI; R9; RDX] = [Some (GP Stack 0); Some (GP Stack 416); Some (GP Stack 416); Some (GQ (EV 102) (EV 103)); Some (GR RDX)].
Proof. vm_compute. reflexivity. Qed.

Definition i_restore := S0 0 0 0 false [(RSP, SP Stack 0)].
Definition r_restore := get (symrun (winf 0) c_restore i_restore).
Lemma restore_run : symrun (winf 0) c_restore i_restore = Some r_restore. Proof. vm_compute. reflexivity. Qed.
Lemma restore_regs : map (gsum 10 r_restore) [RSP; R11; R12; R13; R14; R15; RBX; RBP] =
  [Some (GP Stack 0); Some (GQ (EV 88) (EV 89)); Some (GQ (EV 90) (EV 91)); Some (GQ (EV 92) (EV 93)); Some (GQ (EV 94) (EV 95)); Some (GQ (EV 96) (EV 97));
   Some (GQ (EV 98) (EV 99)); Some (GQ (EV 100) (EV 101))].
Proof. vm_compute. reflexivity. Qed.
