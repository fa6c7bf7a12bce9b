(** Segments of the program, executed symbolically from a standard state *)
From Verif Require Import Base SalsaModel SalsaSpec SalsaSym SalsaSound.
Local Open Scope N_scope.

Definition Z0 : N := 340.
Definition slots (o : object) (base : N) (n : nat) : list ((object * N) * N) := map (fun i => ((o, 4 * N.of_nat i), base + N.of_nat i)) (List.seq 0 n).
Definition sm0 (nin nout : nat) (kn : bool) : list ((object * N) * N) :=
  slots Stack 0 120 ++ slots In 184 nin ++ slots Out 248 nout ++ (if kn then slots Key 312 8 ++ slots Nonce 320 2 else []).
Definition lanes0 (i : nat) : quad N := let b := 120 + 4 * N.of_nat i in Quad b (b + 1) (b + 2) (b + 3).
Definition sx0 (n : nat) : list (nat * quad N) := map (fun i => (i, lanes0 i)) (List.seq 0 n).
Definition S0 (nx_ nin nout : nat) (kn : bool) (gs : list (reg * sval)) : sst := Sst (Dag [] Z0) (sx0 nx_) (sm0 nin nout kn) gs.
Definition winf (W : N) (o : object) : N := match o with Stack => 480 | Out => W | _ => 0 end.

(** Results *)
Inductive gval : Set := GP (o : object) (p : N) | GR (r : reg) | GE (e : expr) | GQ (a b : expr) | GW (e : expr).
Section Results.
Context (n : nat) (S : sst).
Definition texp (i : N) : option expr := let e := tree n (tb (dg S)) i in if below Z0 e then Some e else None.
Fixpoint words_from (o : object) (l : list nat) : option (list expr) :=
  match l with
  | [] => Some []
  | i :: r => match getm o (4 * N.of_nat i) (sm S) with
              | Some k => match texp k, words_from o r with Some e, Some l => Some (e :: l) | _, _ => None end
              | None => None
              end
  end.
Definition words_of (o : object) (c : nat) : option (list expr) := words_from o (List.seq 0 c).
Definition xsum (r : nat) : option (quad expr) :=
  match getx r (sx S) with
  | Some (Quad a b c d) => match texp a, texp b, texp c, texp d with Some a, Some b, Some c, Some d => Some (Quad a b c d) | _, _, _, _ => None end
  | None => None
  end.
Definition gsum (r : reg) : option gval :=
  match getg r (sg S) with
  | Some (SP o p) => Some (GP o p)
  | Some (SR r) => Some (GR r)
  | Some (SE i) => option_map GE (texp i)
  | Some (SQ a b) => match texp a, texp b with Some a, Some b => Some (GQ a b) | _, _ => None end
  | Some (SW i) => option_map GW (texp i)
  | None => None
  end.
End Results.

Lemma getm_in o p l i : getm o p l = Some i -> List.In ((o, p), i) l.
Proof.
  induction l as [|[[o1 p1] i1] r IH]; cbn; [discriminate|]. destruct ((p =? p1) && object_beq o o1) eqn:E; intros H.
  - apply andb_true_iff in E. destruct E as [E1 E2]. apply N.eqb_eq in E1. apply object_beq_eq in E2. injection H as ->. subst. now left.
  - right. now apply IH.
Qed.
Lemma getx_in i l q : getx i l = Some q -> List.In (i, q) l.
Proof.
  induction l as [|[i1 q1] r IH]; cbn; [discriminate|]. destruct (Nat.eqb i i1) eqn:E; intros H.
  - apply Nat.eqb_eq in E. injection H as ->. subst. now left.
  - right. now apply IH.
Qed.
Lemma getg_in i l q : getg i l = Some q -> List.In (i, q) l.
Proof.
  induction l as [|[i1 q1] r IH]; cbn; [discriminate|]. destruct (reg_beq i i1) eqn:E; intros H.
  - apply reg_beq_eq in E. injection H as ->. subst. now left.
  - right. now apply IH.
Qed.

Section Seg.
Context (size : object -> N) (sp ko no : N).
Definition offf (i c : N) (o : object) : N := match o with Stack => sp | In => i | Out => c | Key => ko | Nonce => no end.
Context (Hsp : sp mod 16 = 0).
Section One.
Context (ia ca : N) (w : list N) (xw iw ow kw nw q : N -> N).
Definition rho0 (i : N) : N :=
  if i <? 120 then nth (N.to_nat i) w 0 else if i <? 184 then xw (i - 120) else if i <? 248 then iw (i - 184) else if i <? 312 then ow (i - 248)
  else if i <? 320 then kw (i - 312) else if i <? 322 then nw (i - 320) else q (i - 322).
Definition words_are (k : mem) (o : object) (a : N) (n : nat) (f : N -> N) : Prop :=
  forall j, (j < n)%nat -> load size k o (a + 4 * N.of_nat j) = Some (f (N.of_nat j)).
Definition regsem (g0 : reg -> val) (f : N -> N) (v : gval) (u : val) : Prop :=
  match v with
  | GP o p => u = VP o (offf ia ca o + p)
  | GR r => u = g0 r
  | GE e | GW e => u = VI (eval f e)
  | GQ a b => u = VI (eval f a + W32 * eval f b)
  end.

Lemma slots_ok k o base c f n d : words_are k o (offf ia ca o) c f -> (forall j, (j < c)%nat -> rho0 (base + N.of_nat j) = f (N.of_nat j)) -> base + N.of_nat c <= n ->
  forall o' p i, List.In ((o', p), i) (slots o base c) -> nx d = n -> i < nx d /\ load size k o' (offf ia ca o' + p) = Some (rho0 i) /\ p mod 4 = 0.
Proof.
  intros H Hr Hn o' p i Hi Hd. unfold slots in Hi. apply in_map_iff in Hi. destruct Hi as (j & E & Hj). apply in_seq in Hj. injection E as <- <- <-.
  split; [rewrite Hd; lia|]. split; [|rewrite N.mul_comm; apply N.mod_mul; lia]. rewrite Hr by lia. apply H. lia.
Qed.

Lemma segment W nx_ nin nout kn gs l S' n s :
  symrun (winf W) l (S0 nx_ nin nout kn gs) = Some S' ->
  words_are (m s) Stack sp 120 (fun j => nth (N.to_nat j) w 0) ->
  (nx_ <= 16)%nat -> (nin <= 64)%nat -> (nout <= 64)%nat ->
  (forall r, (r < nx_)%nat -> let b := 4 * N.of_nat r in x s r = Quad (xw b) (xw (b + 1)) (xw (b + 2)) (xw (b + 3)) /\
     xw b < W32 /\ xw (b + 1) < W32 /\ xw (b + 2) < W32 /\ xw (b + 3) < W32) ->
  words_are (m s) In ia nin iw -> words_are (m s) Out ca nout ow ->
  (kn = true -> words_are (m s) Key ko 8 kw /\ words_are (m s) Nonce no 2 nw) ->
  (forall r v, List.In (r, v) gs -> svrel (offf ia ca) (g s) (Dag [] Z0) rho0 v (g s r)) ->
  exists s', seq size l s = Some s' /\ frame (offf ia ca) (winf W) (m s) (m s') /\
    (forall o c L, words_of n S' o c = Some L -> words_are (m s') o (offf ia ca o) c (fun j => nth (N.to_nat j) (map (eval rho0) L) 0)) /\
    (forall r q, xsum n S' r = Some q -> x s' r = qmap (eval rho0) q) /\
    (forall r v, gsum n S' r = Some v -> regsem (g s) rho0 v (g s' r)) /\
    exists rho', R size (offf ia ca) (g s) S' rho' s' /\ ext (Dag [] Z0) (dg S') rho0 rho'.
Proof.
  intros Hrun Hst Hnx Hnin Hnout Hx Hin Hout Hkn Hg.
  assert (HR : R size (offf ia ca) (g s) (S0 nx_ nin nout kn gs) rho0 s).
  { split; cbn [dg sx sm sg S0].
    - intros k nd [].
    - intros r qq Hq. apply getx_in in Hq. unfold sx0 in Hq. apply in_map_iff in Hq. destruct Hq as (j & E & Hj). injection E as <- <-.
      apply in_seq in Hj. destruct (Hx j ltac:(lia)) as (-> & B0 & B1 & B2 & B3).
      assert (G : forall t, t < 4 -> rho0 (120 + 4 * N.of_nat j + t) = xw (4 * N.of_nat j + t)).
      { intros t Ht. unfold rho0. replace (120 + 4 * N.of_nat j + t <? 120) with false by lia. replace (120 + 4 * N.of_nat j + t <? 184) with true by lia.
        f_equal. lia. }
      pose proof (G 0 ltac:(lia)) as G0. rewrite !N.add_0_r in G0. pose proof (G 1 ltac:(lia)) as G1. pose proof (G 2 ltac:(lia)) as G2.
      pose proof (G 3 ltac:(lia)) as G3. unfold lanes0. cbv zeta. unfold hasq, has. cbn [nx]. unfold Z0.
      split; [|split; [|split]]; (split; [clear - Hj Hnx; lia|split; [assumption|assumption]]).
    - intros o p i Hi. apply getm_in in Hi. unfold sm0 in Hi. rewrite !in_app_iff in Hi. destruct Hi as [Hi|[Hi|[Hi|Hi]]].
      + eapply slots_ok; [exact Hst| | |exact Hi|reflexivity]; [|cbn [nx]; unfold Z0; lia]. intros j Hj. unfold rho0. replace (0 + N.of_nat j <? 120) with true by lia. reflexivity.
      + eapply slots_ok; [exact Hin| | |exact Hi|reflexivity]; [|cbn [nx]; unfold Z0; lia]. intros j Hj. unfold rho0. replace (184 + N.of_nat j <? 120) with false by lia.
        replace (184 + N.of_nat j <? 184) with false by lia. replace (184 + N.of_nat j <? 248) with true by lia. f_equal. lia.
      + eapply slots_ok; [exact Hout| | |exact Hi|reflexivity]; [|cbn [nx]; unfold Z0; lia]. intros j Hj. unfold rho0. replace (248 + N.of_nat j <? 120) with false by lia.
        replace (248 + N.of_nat j <? 184) with false by lia. replace (248 + N.of_nat j <? 248) with false by lia. replace (248 + N.of_nat j <? 312) with true by lia. f_equal. lia.
      + destruct kn; [|destruct Hi]. destruct (Hkn eq_refl) as [Hk Hn]. apply in_app_iff in Hi. destruct Hi as [Hi|Hi].
        * eapply slots_ok; [exact Hk| | |exact Hi|reflexivity]; [|cbn [nx]; unfold Z0; lia]. intros j Hj. unfold rho0. replace (312 + N.of_nat j <? 120) with false by lia.
          replace (312 + N.of_nat j <? 184) with false by lia. replace (312 + N.of_nat j <? 248) with false by lia.
          replace (312 + N.of_nat j <? 312) with false by lia. replace (312 + N.of_nat j <? 320) with true by lia. f_equal. lia.
        * eapply slots_ok; [exact Hn| | |exact Hi|reflexivity]; [|cbn [nx]; unfold Z0; lia]. intros j Hj. unfold rho0. replace (320 + N.of_nat j <? 120) with false by lia.
          replace (320 + N.of_nat j <? 184) with false by lia. replace (320 + N.of_nat j <? 248) with false by lia.
          replace (320 + N.of_nat j <? 312) with false by lia. replace (320 + N.of_nat j <? 320) with false by lia. replace (320 + N.of_nat j <? 322) with true by lia.
          f_equal. lia.
    - intros r v Hv. apply getg_in in Hv. now apply Hg. }
  destruct (symrun_ok size (offf ia ca) (winf W) (g s) Hsp l _ _ _ _ Hrun HR) as (s' & rho' & E & R' & F & X). exists s'. split; [exact E|]. split; [exact F|].
  assert (T : forall i e, texp n S' i = Some e -> rho' i = eval rho0 e).
  { intros i e. unfold texp. destruct (below Z0 (tree n (tb (dg S')) i)) eqn:B; [|discriminate]. intros H. injection H as <-.
    rewrite <- (tree_ok n (dg S') rho' i (rJ _ _ _ _ _ _ R')). apply (eval_below Z0); [exact B|]. intros z Hz. apply X. exact Hz. }
  split; [|split; [|split]].
  - intros o c L HL.
    assert (G : forall l0 L, words_from n S' o l0 = Some L -> forall j, (j < List.length l0)%nat ->
      load size (m s') o (offf ia ca o + 4 * N.of_nat (nth j l0 0%nat)) = Some (nth j (map (eval rho0) L) 0)).
    { induction l0 as [|i0 l0 IH]; intros L0 H0 j Hj; cbn in Hj; [lia|]. cbn [words_from] in H0.
      destruct (getm o (4 * N.of_nat i0) (sm S')) as [k|] eqn:Ek; [|discriminate].
      destruct (texp n S' k) as [e|] eqn:Ee; [|discriminate]. destruct (words_from n S' o l0) as [L1|] eqn:El; [|discriminate]. injection H0 as <-.
      destruct j as [|j]; cbn [nth map].
      - destruct (rM _ _ _ _ _ _ R' _ _ _ Ek) as (_ & Lk & _). rewrite Lk. now rewrite (T _ _ Ee).
      - apply IH; [reflexivity|lia]. }
    intros j Hj. specialize (G _ _ HL j). rewrite seq_length, seq_nth in G by exact Hj. rewrite Nnat.Nat2N.id. apply G. exact Hj.
  - intros r qq Hq. unfold xsum in Hq. destruct (getx r (sx S')) as [[a b c d]|] eqn:Ex; [|discriminate].
    destruct (texp n S' a) as [ea|] eqn:Ea; [|discriminate]. destruct (texp n S' b) as [eb|] eqn:Eb; [|discriminate].
    destruct (texp n S' c) as [ec|] eqn:Ec; [|discriminate]. destruct (texp n S' d) as [ed|] eqn:Ed; [|discriminate]. injection Hq as <-.
    pose proof (rX _ _ _ _ _ _ R' _ _ Ex) as Hx'. destruct (x s' r) as [a' b' c' d']. cbn in Hx'. destruct Hx' as ((_ & <- & _) & (_ & <- & _) & (_ & <- & _) & (_ & <- & _)).
    cbn. now rewrite (T _ _ Ea), (T _ _ Eb), (T _ _ Ec), (T _ _ Ed).
  - intros r v Hv. unfold gsum in Hv. destruct (getg r (sg S')) as [sv|] eqn:Eg; [|discriminate]. pose proof (rG _ _ _ _ _ _ R' _ _ Eg) as G.
    destruct sv as [o p|r0|i|a b|i]; cbn in G.
    + injection Hv as <-. exact G.
    + injection Hv as <-. exact G.
    + destruct (texp n S' i) as [e|] eqn:Ee; [|discriminate]. injection Hv as <-. cbn. rewrite <- (T _ _ Ee). apply G.
    + destruct (texp n S' a) as [ea|] eqn:Ea; [|discriminate]. destruct (texp n S' b) as [eb|] eqn:Eb; [|discriminate]. injection Hv as <-. cbn.
      rewrite <- (T _ _ Ea), <- (T _ _ Eb). apply G.
    + destruct (texp n S' i) as [e|] eqn:Ee; [|discriminate]. injection Hv as <-. cbn. rewrite <- (T _ _ Ee). apply G.
  - exists rho'. split; [exact R'|exact X].
Qed.
End One.
End Seg.
