(** The symbolic execution of SalsaSym is sound *)
From Verif Require Import Base SalsaModel SalsaSpec SalsaSym.
From Verif Require ShaProofs.
Local Open Scope N_scope.

Lemma node_eqb_eq p q : node_eqb p q = true -> p = q.
Proof. destruct p, q; cbn; intros H; try discriminate; rewrite ?andb_true_iff, ?N.eqb_eq in H; try destruct H; subst; reflexivity. Qed.
Lemma find_node_in n t k : find_node n t = Some k -> List.In (k, n) t.
Proof.
  induction t as [|[k' n'] r IH]; cbn; [discriminate|]. destruct (node_eqb n n') eqn:E; intros H.
  - apply node_eqb_eq in E. injection H as ->. subst. now left.
  - right. now apply IH.
Qed.
Lemma find_key_in i t n : find_key i t = Some n -> List.In (i, n) t.
Proof.
  induction t as [|[k' n'] r IH]; cbn; [discriminate|]. destruct (k' =? i) eqn:E; intros H.
  - apply N.eqb_eq in E. injection H as ->. subst. now left.
  - right. now apply IH.
Qed.
Lemma sem_ext z n f h : kids_below z n = true -> (forall i, i < z -> f i = h i) -> sem f n = sem h n.
Proof.
  intros H E. destruct n; cbn in *; rewrite ?andb_true_iff, ?N.ltb_lt in H; try reflexivity; try (now rewrite (E _ H)); destruct H as [H1 H2]; now rewrite (E _ H1), (E _ H2).
Qed.
Lemma kids_mono z z' n : kids_below z n = true -> z <= z' -> kids_below z' n = true.
Proof. destruct n; cbn; intros H Hz; rewrite ?andb_true_iff, ?N.ltb_lt in *; lia. Qed.

Definition J (d : dag) (rho : N -> N) : Prop := forall k n, List.In (k, n) (tb d) -> rho k = sem rho n /\ k < nx d /\ kids_below (nx d) n = true.
Definition ext (d d' : dag) (rho rho' : N -> N) : Prop := nx d <= nx d' /\ forall i, i < nx d -> rho' i = rho i.
Lemma ext_refl d rho : ext d d rho rho.
Proof. split; [lia|reflexivity]. Qed.
Lemma ext_trans d1 d2 d3 r1 r2 r3 : ext d1 d2 r1 r2 -> ext d2 d3 r2 r3 -> ext d1 d3 r1 r3.
Proof. intros [A B] [C D]. split; [lia|]. intros i Hi. rewrite D by lia. now apply B. Qed.

Lemma mk_ok n d rho k d' : J d rho -> mk n d = Some (k, d') ->
  exists rho', J d' rho' /\ ext d d' rho rho' /\ k < nx d' /\ rho' k = sem rho n.
Proof.
  intros HJ H. unfold mk in H. destruct (find_node n (tb d)) as [k0|] eqn:E.
  - injection H as -> ->. exists rho. apply find_node_in in E. destruct (HJ _ _ E) as (H1 & H2 & H3). split; [exact HJ|split; [apply ext_refl|auto]].
  - destruct (kids_below (nx d) n) eqn:K; [|discriminate]. injection H as <- <-. exists (fun i => if i =? nx d then sem rho n else rho i).
    assert (X : ext d (Dag ((nx d, n) :: tb d) (N.succ (nx d))) rho (fun i => if i =? nx d then sem rho n else rho i)).
    { split; cbn; [lia|]. intros i Hi. destruct (N.eqb_spec i (nx d)); [lia|reflexivity]. }
    split; [|split; [exact X|split; [cbn; lia|now rewrite N.eqb_refl]]].
    intros k1 n1 [H|H].
    + injection H as <- <-. cbn [nx]. rewrite N.eqb_refl. split; [|split; [lia|eapply kids_mono; [exact K|lia]]].
      eapply sem_ext; [exact K|]. intros i Hi. symmetry. now apply X.
    + destruct (HJ _ _ H) as (H1 & H2 & H3). cbn [nx]. split; [|split; [lia|eapply kids_mono; [exact H3|lia]]].
      destruct X as [_ X]. rewrite X by exact H2. rewrite H1. eapply sem_ext; [exact H3|]. intros i Hi. symmetry. now apply X.
Qed.
Lemma sem_sorted rho a b : sem rho (sorted a b) = add32 (rho a) (rho b).
Proof. unfold sorted. destruct (a <=? b); cbn; [reflexivity|]. unfold add32. now rewrite N.add_comm. Qed.

(** Memory *)
Lemma word_at_below k o a : word_at k o a < W32.
Proof.
  unfold word_at, byte_at, W32. change (2 ^ 8) with 256. change (2 ^ 16) with 65536. change (2 ^ 24) with 16777216. change (2 ^ 32) with 4294967296.
  assert (B : forall j, k o j mod 256 <= 255) by (intros j; pose proof (N.mod_lt (k o j) 256 ltac:(lia)); lia).
  pose proof (B a) as B0. pose proof (B (a + 1)) as B1. pose proof (B (a + 2)) as B2. pose proof (B (a + 3)) as B3. clear B.
  set (b0 := k o a mod 256) in *. set (b1 := k o (a + 1) mod 256) in *. set (b2 := k o (a + 2) mod 256) in *. set (b3 := k o (a + 3) mod 256) in *.
  clearbody b0 b1 b2 b3. lia.
Qed.
Lemma load_below size k o a v : load size k o a = Some v -> v < W32.
Proof. unfold load. destruct (a + 4 <=? size o); [|discriminate]. intros H. injection H as <-. apply word_at_below. Qed.
Lemma object_beq_eq a b : object_beq a b = true <-> a = b.
Proof. split; [apply internal_object_dec_bl|apply internal_object_dec_lb]. Qed.
Lemma reg_beq_eq a b : reg_beq a b = true <-> a = b.
Proof. split; [apply internal_reg_dec_bl|apply internal_reg_dec_lb]. Qed.
Lemma object_beq_refl a : object_beq a a = true.
Proof. now apply object_beq_eq. Qed.
Lemma put_word_other k o a v o' a' : (o' <> o \/ a' < a \/ a + 4 <= a') -> put_word k o a v o' a' = k o' a'.
Proof.
  intros H. unfold put_word. destruct (object_beq o' o) eqn:E; [|reflexivity]. apply object_beq_eq in E.
  destruct (N.leb_spec a a'); cbn; [|reflexivity]. destruct (N.ltb_spec a' (a + 4)); cbn; [|reflexivity]. destruct H as [H|H]; [now elim H|lia].
Qed.
Lemma put_word_at k o a v i : i < 4 -> put_word k o a v o (a + i) = v / 2 ^ (8 * i) mod 256.
Proof.
  intros H. unfold put_word. rewrite object_beq_refl. replace (a <=? a + i) with true by lia. replace (a + i <? a + 4) with true by lia. cbn.
  now replace (a + i - a) with i by lia.
Qed.
Lemma word_at_put_same k o a v : v < W32 -> word_at (put_word k o a v) o a = v.
Proof.
  intros Hv. unfold word_at, byte_at. rewrite <- (N.add_0_r a) at 2. rewrite !put_word_at by lia. unfold W32 in Hv.
  change (2 ^ (8 * 0)) with 1. change (2 ^ (8 * 1)) with 256. change (2 ^ (8 * 2)) with 65536. change (2 ^ (8 * 3)) with 16777216.
  change (2 ^ 8) with 256. change (2 ^ 16) with 65536. change (2 ^ 24) with 16777216. change (2 ^ 32) with 4294967296 in Hv.
  rewrite !N.mod_mod by lia. lia.
Qed.
Lemma word_at_put_other k o a v o' a' : (o' <> o \/ a' + 4 <= a \/ a + 4 <= a') -> word_at (put_word k o a v) o' a' = word_at k o' a'.
Proof. intros H. unfold word_at, byte_at. rewrite !put_word_other by (destruct H as [H|H]; [now left|right; lia]). reflexivity. Qed.

Ltac ob H := match type of H with
  | obind ?a _ = Some _ => let E := fresh "E" in destruct a eqn:E; [cbn [obind] in H|discriminate H] end.

Section Sound.
Context (size off win : object -> N) (g0 : reg -> val) (Hal : off Stack mod 16 = 0).

Definition has (d : dag) (rho : N -> N) (i v : N) : Prop := i < nx d /\ rho i = v /\ v < W32.
Definition hasq (d : dag) (rho : N -> N) (p q : quad N) : Prop :=
  match p, q with Quad a b c e, Quad a' b' c' e' => has d rho a a' /\ has d rho b b' /\ has d rho c c' /\ has d rho e e' end.
Definition svrel (d : dag) (rho : N -> N) (v : sval) (w : val) : Prop :=
  match v with
  | SP o p => w = VP o (off o + p)
  | SR r => w = g0 r
  | SE i => has d rho i (rho i) /\ w = VI (rho i)
  | SQ lo hi => has d rho lo (rho lo) /\ has d rho hi (rho hi) /\ w = VI (rho lo + W32 * rho hi)
  | SW i => i < nx d /\ w = VI (rho i)
  end.
Record R (S : sst) (rho : N -> N) (s : st) : Prop := {
  rJ : J (dg S) rho;
  rX : forall i q, getx i (sx S) = Some q -> hasq (dg S) rho q (x s i);
  rM : forall o p i, getm o p (sm S) = Some i -> i < nx (dg S) /\ load size (m s) o (off o + p) = Some (rho i) /\ p mod 4 = 0;
  rG : forall r v, getg r (sg S) = Some v -> svrel (dg S) rho v (g s r) }.
Definition frame (k k' : mem) : Prop := forall o a, (writable o = true -> a < off o \/ off o + win o <= a) -> k' o a = k o a.
Lemma frame_refl k : frame k k.
Proof. intros o a _. reflexivity. Qed.
Lemma frame_trans k1 k2 k3 : frame k1 k2 -> frame k2 k3 -> frame k1 k3.
Proof. intros A B o a H. rewrite B by exact H. now apply A. Qed.

Lemma has_ext d d' rho rho' i v : ext d d' rho rho' -> has d rho i v -> has d' rho' i v.
Proof. intros [A B] (H1 & H2 & H3). split; [lia|]. split; [|exact H3]. now rewrite B. Qed.
Lemma hasq_ext d d' rho rho' p q : ext d d' rho rho' -> hasq d rho p q -> hasq d' rho' p q.
Proof. intros X. destruct p, q; cbn. intros (A & B & C & D). repeat split; try (eapply has_ext; eassumption). all: eapply has_ext; eassumption. Qed.
Lemma svrel_ext d d' rho rho' v w : ext d d' rho rho' -> svrel d rho v w -> svrel d' rho' v w.
Proof.
  intros X. destruct v as [o p|r|i|lo hi|i]; cbn; try tauto.
  - intros (A & B). pose proof (has_ext _ _ _ _ _ _ X A) as A'. destruct A' as (A1 & A2 & A3). destruct X as [X0 X1]. rewrite A2. repeat split; try tauto.
  - intros (A & B & C). pose proof (has_ext _ _ _ _ _ _ X A) as A'. pose proof (has_ext _ _ _ _ _ _ X B) as B'.
    destruct A' as (A1 & A2 & A3). destruct B' as (B1 & B2 & B3). rewrite A2, B2. repeat split; try tauto.
  - intros (A & B). destruct X as [X0 X1]. rewrite X1 by exact A. split; [lia|exact B].
Qed.
Lemma R_ext S rho s d' rho' : R S rho s -> J d' rho' -> ext (dg S) d' rho rho' -> R (with_d d' S) rho' s.
Proof.
  intros [A B C D] HJ X. split; cbn.
  - exact HJ.
  - intros i q H. eapply hasq_ext; [exact X|]. now apply B.
  - intros o p i H. destruct (C _ _ _ H) as (C1 & C2 & C3). destruct X as [X0 X1]. rewrite X1 by exact C1. repeat split; try tauto. lia.
  - intros r v H. eapply svrel_ext; [exact X|]. now apply D.
Qed.
Lemma smk_ok n S rho s k S' : R S rho s -> smk n S = Some (k, S') ->
  exists rho', R S' rho' s /\ ext (dg S) (dg S') rho rho' /\ k < nx (dg S') /\ rho' k = sem rho n.
Proof.
  intros HR H. unfold smk, obind in H. destruct (mk n (dg S)) as [[k' d']|] eqn:E; [|discriminate]. injection H as <- <-.
  destruct (mk_ok _ _ _ _ _ (rJ _ _ _ HR) E) as (rho' & A & B & C & D). exists rho'. split; [now apply R_ext with rho|]. auto.
Qed.
Lemma R_set_g S rho s r v w : R S rho s -> svrel (dg S) rho v w -> R (with_g r v S) rho (set_g r w s).
Proof.
  intros [A B C D] H. split; cbn; auto. intros r' v'. destruct (reg_beq r' r); [|apply D]. intros E. injection E as <-. exact H.
Qed.
Lemma R_flag S rho s c z : R S rho s -> R S rho (set_f c z s).
Proof. intros [A B C D]. split; auto. Qed.
Lemma R_set_x S rho s i p q : R S rho s -> hasq (dg S) rho p q -> R (with_x i p S) rho (set_x i q s).
Proof.
  intros [A B C D] H. split; cbn; auto. intros i' p'. destruct (Nat.eqb i' i); [|apply B]. intros E. injection E as <-. exact H.
Qed.
Lemma qmk2_ok f h S rho s p q p' q' k S' : R S rho s -> (forall rho a b, sem rho (f a b) = h (rho a) (rho b)) -> (forall a b, a < W32 -> b < W32 -> h a b < W32) ->
  hasq (dg S) rho p p' -> hasq (dg S) rho q q' -> qmk2 f p q S = Some (k, S') ->
  exists rho', R S' rho' s /\ ext (dg S) (dg S') rho rho' /\ hasq (dg S') rho' k (qmap2 h p' q').
Proof.
  intros HR Hf Hh Hp Hq H. destruct p as [a b c e], p' as [a' b' c' e'], q as [a1 b1 c1 e1], q' as [a1' b1' c1' e1']. cbn in Hp, Hq.
  destruct Hp as (Pa & Pb & Pc & Pe), Hq as (Qa & Qb & Qc & Qe). cbn in H.
  destruct (smk (f a a1) S) as [[k0 S0]|] eqn:E0; [|discriminate]. cbn in H.
  destruct (smk_ok _ _ _ _ _ _ HR E0) as (r0 & R0 & X0 & L0 & V0).
  destruct (smk (f b b1) S0) as [[k1 S1]|] eqn:E1; [|discriminate]. cbn in H.
  destruct (smk_ok _ _ _ _ _ _ R0 E1) as (r1 & R1 & X1 & L1 & V1).
  destruct (smk (f c c1) S1) as [[k2 S2]|] eqn:E2; [|discriminate]. cbn in H.
  destruct (smk_ok _ _ _ _ _ _ R1 E2) as (r2 & R2 & X2 & L2 & V2).
  destruct (smk (f e e1) S2) as [[k3 S3]|] eqn:E3; [|discriminate]. cbn in H.
  destruct (smk_ok _ _ _ _ _ _ R2 E3) as (r3 & R3 & X3 & L3 & V3).
  injection H as <- <-. exists r3. split; [exact R3|].
  assert (X01 : ext (dg S) (dg S1) rho r1) by (eapply ext_trans; eassumption).
  assert (X02 : ext (dg S) (dg S2) rho r2) by (eapply ext_trans; eassumption).
  assert (X03 : ext (dg S) (dg S3) rho r3) by (eapply ext_trans; eassumption).
  assert (X23 := X3). assert (X13 : ext (dg S1) (dg S3) r1 r3) by (eapply ext_trans; eassumption).
  assert (X003 : ext (dg S0) (dg S3) r0 r3) by (eapply ext_trans; eassumption).
  split; [exact X03|]. rewrite Hf in V0, V1, V2, V3.
  apply (has_ext _ _ _ _ _ _ X0) in Pb, Qb. apply (has_ext _ _ _ _ _ _ X01) in Pc, Qc. apply (has_ext _ _ _ _ _ _ X02) in Pe, Qe.
  assert (G : forall d rr i i1 v v1, has d rr i v -> has d rr i1 v1 -> h (rr i) (rr i1) = h v v1 /\ h v v1 < W32).
  { intros d rr i i1 v v1 (_ & -> & Bv) (_ & -> & Bv1). split; [reflexivity|]. now apply Hh. }
  destruct (G _ _ _ _ _ _ Pa Qa) as [Ga Ba]. destruct (G _ _ _ _ _ _ Pb Qb) as [Gb Bb].
  destruct (G _ _ _ _ _ _ Pc Qc) as [Gc Bc]. destruct (G _ _ _ _ _ _ Pe Qe) as [Ge Be].
  cbn. split; [|split; [|split]].
  - apply (has_ext _ _ _ _ _ _ X003). split; [exact L0|]. now rewrite V0, Ga.
  - apply (has_ext _ _ _ _ _ _ X13). split; [exact L1|]. now rewrite V1, Gb.
  - apply (has_ext _ _ _ _ _ _ X23). split; [exact L2|]. now rewrite V2, Gc.
  - split; [exact L3|]. now rewrite V3, Ge.
Qed.

Lemma getm_setm o p v l o' p' : getm o' p' (setm o p v l) =
  if (p' =? p) && object_beq o' o then (match getm o p l with Some _ => Some v | None => None end) else getm o' p' l.
Proof.
  induction l as [|[[o1 p1] i] r IH]; cbn.
  - now destruct ((p' =? p) && object_beq o' o).
  - destruct ((p =? p1) && object_beq o o1) eqn:E.
    + apply andb_true_iff in E. destruct E as [E1 E2]. apply N.eqb_eq in E1. apply object_beq_eq in E2. subst p1 o1. cbn.
      destruct ((p' =? p) && object_beq o' o); reflexivity.
    + cbn. destruct ((p' =? p1) && object_beq o' o1) eqn:F.
      * apply andb_true_iff in F. destruct F as [F1 F2]. apply N.eqb_eq in F1. apply object_beq_eq in F2. subst p1 o1.
        destruct ((p' =? p) && object_beq o' o) eqn:G; [|reflexivity]. apply andb_true_iff in G. destruct G as [G1 G2].
        apply N.eqb_eq in G1. apply object_beq_eq in G2. subst. now rewrite N.eqb_refl, object_beq_refl in E.
      * exact IH.
Qed.
Lemma sstore_ok S rho s o p i v S' : R S rho s -> has (dg S) rho i v -> sstore win o p i S = Some S' ->
  exists k', store size (m s) o (off o + p) v = Some k' /\ R S' rho (set_m k' s) /\ frame (m s) k' /\ dg S' = dg S /\ sx S' = sx S /\ sg S' = sg S.
Proof.
  intros HR Hi H. unfold sstore in H. destruct (getm o p (sm S)) as [j|] eqn:E; [|discriminate].
  destruct (writable o && (p + 4 <=? win o) && (p mod 4 =? 0)) eqn:F; [|discriminate]. injection H as <-.
  apply andb_true_iff in F. destruct F as [F F3]. apply andb_true_iff in F. destruct F as [F1 F2]. apply N.leb_le in F2. apply N.eqb_eq in F3.
  destruct HR as [A B C D]. destruct (C _ _ _ E) as (C1 & C2 & C3). unfold load in C2.
  destruct (off o + p + 4 <=? size o) eqn:G; [|discriminate].
  exists (put_word (m s) o (off o + p) v). unfold store. rewrite F1, G. cbn. split; [reflexivity|]. split; [|split; [|auto]].
  - split; cbn; auto. intros o' p' i' H. rewrite getm_setm, E in H. destruct ((p' =? p) && object_beq o' o) eqn:K.
    + apply andb_true_iff in K. destruct K as [K1 K2]. apply N.eqb_eq in K1. apply object_beq_eq in K2. subst o' p'. injection H as <-.
      destruct Hi as (H1 & H2 & H3). split; [exact H1|]. split; [|exact F3]. unfold load. rewrite G, word_at_put_same by exact H3. now rewrite H2.
    + destruct (C _ _ _ H) as (D1 & D2 & D3). split; [exact D1|]. split; [|exact D3]. unfold load in *.
      destruct (off o' + p' + 4 <=? size o') eqn:G'; [|discriminate]. injection D2 as D2. rewrite <- D2. f_equal. apply word_at_put_other.
      destruct (object_beq o' o) eqn:O.
      * right. apply object_beq_eq in O. subst o'. rewrite andb_true_r in K. apply N.eqb_neq in K.
        assert (p' + 4 <= p \/ p + 4 <= p') by (clear - F3 D3 K; lia). lia.
      * left. intros ->. rewrite object_beq_refl in O. discriminate.
  - intros o' a' Ha. apply put_word_other. destruct (object_beq o' o) eqn:O.
    + apply object_beq_eq in O. subst o'. specialize (Ha F1). right. lia.
    + left. intros ->. rewrite object_beq_refl in O. discriminate.
Qed.
Lemma sload_ok S rho s o p i : R S rho s -> sload o p S = Some i -> has (dg S) rho i (rho i) /\ load size (m s) o (off o + p) = Some (rho i).
Proof.
  intros HR H. destruct (rM _ _ _ HR _ _ _ H) as (A & B & _). split; [|exact B]. repeat split; auto. now apply load_below in B.
Qed.
Lemma saddr_ok S rho s disp b o p : R S rho s -> saddr disp b S = Some (o, p) -> addr s disp b = Some (o, off o + p).
Proof.
  intros HR H. unfold saddr in H. destruct (getg b (sg S)) as [[o' p'|r|i|lo hi|i]|] eqn:E; try discriminate. injection H as <- <-.
  pose proof (rG _ _ _ HR _ _ E) as G. cbn in G. unfold addr. rewrite G. do 2 f_equal. lia.
Qed.
Lemma aligned_off o p : aligned o p = true -> aligned o (off o + p) = true.
Proof.
  unfold aligned. intros H. apply andb_true_iff in H. destruct H as [H1 H2]. rewrite H1. apply object_beq_eq in H1. subst o.
  apply N.eqb_eq in H2. apply N.eqb_eq. rewrite N.add_mod, Hal, H2 by lia. reflexivity.
Qed.
Lemma sloadx_ok S rho s o p q : R S rho s -> sloadx o p S = Some q -> exists q', loadx size (m s) o (off o + p) = Some q' /\ hasq (dg S) rho q q'.
Proof.
  intros HR H. unfold sloadx, obind in H. destruct (sload o p S) as [a|] eqn:Ea; [|discriminate].
  destruct (sload o (p + 4) S) as [b|] eqn:Eb; [|discriminate]. destruct (sload o (p + 8) S) as [c|] eqn:Ec; [|discriminate].
  destruct (sload o (p + 12) S) as [e|] eqn:Ee; [|discriminate]. destruct (aligned o p) eqn:Al; [|discriminate]. injection H as <-.
  destruct (sload_ok _ _ _ _ _ _ HR Ea) as [Ha La]. destruct (sload_ok _ _ _ _ _ _ HR Eb) as [Hb Lb].
  destruct (sload_ok _ _ _ _ _ _ HR Ec) as [Hc Lc]. destruct (sload_ok _ _ _ _ _ _ HR Ee) as [He Le].
  rewrite N.add_assoc in Lb, Lc, Le. unfold loadx, obind. rewrite La, Lb, Lc, Le, (aligned_off _ _ Al). eexists. split; [reflexivity|]. cbn. auto.
Qed.
Lemma exact_ok S rho s r i : R S rho s -> exact r S = Some i -> i < nx (dg S) /\ g s r = VI (rho i).
Proof.
  intros HR H. unfold exact in H. destruct (getg r (sg S)) as [v|] eqn:E; [|discriminate]. pose proof (rG _ _ _ HR _ _ E) as G.
  destruct v; try discriminate; injection H as ->; cbn in G.
  - destruct G as [(A & _) B]. auto.
  - exact G.
Qed.
Lemma low_ok S rho s r i : R S rho s -> low r S = Some i -> has (dg S) rho i (rho i) /\ exists n, g s r = VI n /\ n mod W32 = rho i.
Proof.
  intros HR H. unfold low in H. destruct (getg r (sg S)) as [v|] eqn:E; [|discriminate]. pose proof (rG _ _ _ HR _ _ E) as G.
  destruct v; try discriminate; injection H as ->; cbn in G.
  - destruct G as [A B]. split; [exact A|]. exists (rho i). split; [exact B|]. destruct A as (_ & _ & A). now apply N.mod_small.
  - destruct G as (A & B & C). split; [exact A|]. eexists. split; [exact C|]. destruct A as (_ & _ & A).
    rewrite N.add_comm, N.mul_comm, N.add_mod, N.mod_mul, N.add_0_l, N.mod_mod by (now unfold W32). now apply N.mod_small.
Qed.

Lemma add32_below a b : a < W32 -> b < W32 -> add32 a b < W32.
Proof. intros _ _. apply N.mod_lt. now unfold W32. Qed.
Lemma lxor_below a b : a < W32 -> b < W32 -> N.lxor a b < W32.
Proof. apply ShaProofs.lxor_below. Qed.
Lemma qmap_qmap2 (f : N -> N) q : qmap f q = qmap2 (fun a _ => f a) q q.
Proof. now destruct q. Qed.
Lemma shuffle_ok d rho n p q : hasq d rho p q -> hasq d rho (shuffle n p) (shuffle n q).
Proof.
  intros H. assert (L : forall i, has d rho (lane p i) (lane q i)).
  { intros i. destruct p, q; cbn in *. destruct H as (A & B & C & D). destruct (i =? 0); [exact A|]. destruct (i =? 1); [exact B|].
    destruct (i =? 2); [exact C|exact D]. }
  unfold shuffle, hasq. auto.
Qed.

Definition sim (S : sst) (rho : N -> N) (s : st) (S' : sst) (r : option st) : Prop :=
  exists s' rho', r = Some s' /\ R S' rho' s' /\ frame (m s) (m s') /\ ext (dg S) (dg S') rho rho'.

Lemma symexec_ok i S rho s S' : symexec win i S = Some S' -> R S rho s -> sim S rho s S' (exec size i s).
Proof.
  intros H HR. destruct i; cbn [symexec] in H; try discriminate H.
  - (* MOV *) ob H. injection H as <-. eexists _, rho. split; [reflexivity|]. split; [|split; [apply frame_refl|apply ext_refl]].
    apply R_set_g; [exact HR|]. now apply (rG _ _ _ HR).
  - (* MOVI *) destruct (n <? W32) eqn:L; [|discriminate]. ob H. destruct p as [k S1]. injection H as <-.
    destruct (smk_ok _ _ _ _ _ _ HR E) as (r1 & R1 & X1 & L1 & V1). cbn in V1. eexists _, r1. split; [reflexivity|].
    split; [|split; [apply frame_refl|exact X1]]. apply R_set_g; [exact R1|]. apply N.ltb_lt in L. cbn. rewrite V1. repeat split; auto.
  - (* ADDI *) ob H. ob H. destruct p as [c S1]. ob H. destruct p as [k S2]. injection H as <-.
    destruct (exact_ok _ _ _ _ _ HR E) as [A G]. destruct (smk_ok _ _ _ _ _ _ HR E0) as (r1 & R1 & X1 & L1 & V1). cbn in V1.
    destruct (smk_ok _ _ _ _ _ _ R1 E1) as (r2 & R2 & X2 & L2 & V2). cbn in V2. cbn [exec]. rewrite G. eexists _, r2. split; [reflexivity|].
    split; [|split; [apply frame_refl|eapply ext_trans; eassumption]]. apply R_flag, R_set_g; [exact R2|]. cbn. split; [exact L2|].
    f_equal. rewrite V2, V1. destruct X1 as [_ X1]. now rewrite X1.
  - (* ADD *) ob H. ob H. ob H. destruct p as [k S2]. injection H as <-.
    destruct (exact_ok _ _ _ _ _ HR E) as [A G]. destruct (exact_ok _ _ _ _ _ HR E0) as [A' G'].
    destruct (smk_ok _ _ _ _ _ _ HR E1) as (r2 & R2 & X2 & L2 & V2). cbn in V2. cbn [exec]. unfold int. rewrite G, G'. cbn [obind]. eexists _, r2.
    split; [reflexivity|]. split; [|split; [apply frame_refl|exact X2]]. apply R_flag, R_set_g; [exact R2|]. cbn. split; [exact L2|]. now rewrite V2.
  - (* SHL *) ob H. ob H. destruct p as [k S2]. injection H as <-. destruct (exact_ok _ _ _ _ _ HR E) as [A G].
    destruct (smk_ok _ _ _ _ _ _ HR E0) as (r2 & R2 & X2 & L2 & V2). cbn in V2. cbn [exec]. unfold int. rewrite G. cbn [obind]. eexists _, r2.
    split; [reflexivity|]. split; [|split; [apply frame_refl|exact X2]]. apply R_flag, R_set_g; [exact R2|]. cbn. split; [exact L2|]. now rewrite V2.
  - (* SHR *) ob H. ob H. destruct p as [k S2]. injection H as <-. destruct (exact_ok _ _ _ _ _ HR E) as [A G].
    destruct (smk_ok _ _ _ _ _ _ HR E0) as (r2 & R2 & X2 & L2 & V2). cbn in V2. cbn [exec]. unfold int. rewrite G. cbn [obind]. eexists _, r2.
    split; [reflexivity|]. split; [|split; [apply frame_refl|exact X2]]. apply R_flag, R_set_g; [exact R2|]. cbn. split; [exact L2|]. now rewrite V2.
  - (* STQ *) destruct (getg s0 (sg S)) as [[| | |lo hi|]|] eqn:G; try discriminate. ob H. destruct p as [o p]. ob H. rename s1 into S1.
    pose proof (rG _ _ _ HR _ _ G) as (Hlo & Hhi & Gv). pose proof (saddr_ok _ _ _ _ _ _ _ HR E) as A.
    destruct (sstore_ok _ _ _ _ _ _ _ _ HR Hlo E0) as (k1 & St1 & R1 & F1 & D1 & _ & _). rewrite <- D1 in Hhi.
    destruct (sstore_ok _ _ _ _ _ _ _ _ R1 Hhi H) as (k2 & St2 & R2 & F2 & D2 & _ & _). cbn [exec]. unfold int. rewrite Gv. cbn [obind]. rewrite A.
    cbn [obind]. replace ((rho lo + W32 * rho hi) mod W32) with (rho lo).
    2:{ destruct Hlo as (_ & _ & B). rewrite (N.mul_comm W32), N.mod_add by (now unfold W32). now rewrite N.mod_small. }
    replace ((rho lo + W32 * rho hi) / W32) with (rho hi).
    2:{ destruct Hlo as (_ & _ & B). rewrite (N.mul_comm W32), N.div_add by (now unfold W32). now rewrite N.div_small. }
    rewrite St1. cbn [obind]. rewrite N.add_assoc in St2. cbn [m set_m] in St2. rewrite St2. cbn [obind]. eexists _, rho. split; [reflexivity|].
    split; [exact R2|]. split; [eapply frame_trans; [exact F1|exact F2]|]. rewrite D2, D1. apply ext_refl.
  - (* LDQ *) ob H. destruct p as [o p]. ob H. ob H. injection H as <-. pose proof (saddr_ok _ _ _ _ _ _ _ HR E) as A.
    destruct (sload_ok _ _ _ _ _ _ HR E0) as [Hl Ll]. destruct (sload_ok _ _ _ _ _ _ HR E1) as [Hh Lh]. rewrite N.add_assoc in Lh.
    cbn [exec]. rewrite A. cbn [obind]. rewrite Ll. cbn [obind]. rewrite Lh. cbn [obind]. eexists _, rho. split; [reflexivity|].
    split; [|split; [apply frame_refl|apply ext_refl]]. apply R_set_g; [exact HR|]. cbn. auto.
  - (* LDL *) ob H. destruct p as [o p]. ob H. injection H as <-. pose proof (saddr_ok _ _ _ _ _ _ _ HR E) as A.
    destruct (sload_ok _ _ _ _ _ _ HR E0) as [Hl Ll]. cbn [exec]. rewrite A. cbn [obind]. rewrite Ll. cbn [obind]. eexists _, rho. split; [reflexivity|].
    split; [|split; [apply frame_refl|apply ext_refl]]. apply R_set_g; [exact HR|]. cbn. auto.
  - (* STL *) ob H. destruct p as [o p]. pose proof (saddr_ok _ _ _ _ _ _ _ HR E) as A.
    assert (W : forall S1 rho1 j n, R S1 rho1 s -> has (dg S1) rho1 j (rho1 j) -> sstore win o p j S1 = Some S' -> g s s0 = VI n -> n mod W32 = rho1 j ->
                ext (dg S) (dg S1) rho rho1 -> sim S rho s S' (exec size (STL s0 disp b) s)).
    { intros S1 rho1 j n R1 Hj St G Gn X. destruct (sstore_ok _ _ _ _ _ _ _ _ R1 Hj St) as (k1 & St1 & R2 & F1 & D1 & _ & _).
      cbn [exec]. unfold int. rewrite G. cbn [obind]. rewrite A. cbn [obind]. rewrite Gn, St1. cbn [obind]. eexists _, rho1. split; [reflexivity|].
      split; [exact R2|]. split; [exact F1|]. now rewrite D1. }
    destruct (getg s0 (sg S)) as [[| |j|j hi|j]|] eqn:G; try discriminate.
    + assert (L : low s0 S = Some j) by (unfold low; now rewrite G). destruct (low_ok _ _ _ _ _ HR L) as (Hj & n & Gn & Mn).
      eapply W; eauto. apply ext_refl.
    + assert (L : low s0 S = Some j) by (unfold low; now rewrite G). destruct (low_ok _ _ _ _ _ HR L) as (Hj & n & Gn & Mn).
      eapply W; eauto. apply ext_refl.
    + ob H. destruct p0 as [k S1]. destruct (smk_ok _ _ _ _ _ _ HR E0) as (r1 & R1 & X1 & L1 & V1). cbn in V1.
      pose proof (rG _ _ _ HR _ _ G) as (_ & Gv). eapply W; [exact R1| |exact H|exact Gv|now symmetry|exact X1].
      split; [exact L1|]. split; [reflexivity|]. rewrite V1. apply N.mod_lt. now unfold W32.
  - (* XORL *) ob H. destruct p as [o p]. ob H. ob H. ob H. destruct p0 as [k S1]. injection H as <-. pose proof (saddr_ok _ _ _ _ _ _ _ HR E) as A.
    destruct (sload_ok _ _ _ _ _ _ HR E0) as [Hl Ll]. destruct (low_ok _ _ _ _ _ HR E1) as (Hj & v & Gn & Mn).
    destruct (smk_ok _ _ _ _ _ _ HR E2) as (r1 & R1 & X1 & L1 & V1). cbn in V1. cbn [exec]. unfold int. rewrite Gn. cbn [obind]. rewrite A. cbn [obind].
    rewrite Ll. cbn [obind]. rewrite Mn. eexists _, r1. split; [reflexivity|]. split; [|split; [apply frame_refl|exact X1]].
    apply R_flag, R_set_g; [exact R1|]. cbn. rewrite V1. repeat split; auto. destruct Hl as (_ & _ & Hl), Hj as (_ & _ & Hj). now apply lxor_below.
  - (* LDX *) ob H. destruct p as [o p]. ob H. injection H as <-. pose proof (saddr_ok _ _ _ _ _ _ _ HR E) as A.
    destruct (sloadx_ok _ _ _ _ _ _ HR E0) as (q' & Lq & Hq). cbn [exec]. rewrite A. cbn [obind]. rewrite Lq. cbn [obind]. eexists _, rho.
    split; [reflexivity|]. split; [|split; [apply frame_refl|apply ext_refl]]. now apply R_set_x.
  - (* STX *) ob H. destruct p as [o p]. ob H. destruct (aligned o p) eqn:Al; [|discriminate]. destruct q as [a0 b0 c0 d0].
    pose proof (saddr_ok _ _ _ _ _ _ _ HR E) as A. pose proof (rX _ _ _ HR _ _ E0) as Q. destruct (x s s0) as [a1 b1 c1 d1] eqn:Ex.
    cbn in Q. destruct Q as (Qa & Qb & Qc & Qd). ob H. rename s1 into S1.
    destruct (sstore_ok _ _ _ _ _ _ _ _ HR Qa E1) as (k1 & St1 & R1 & F1 & D1 & _ & _). rewrite <- D1 in Qb. ob H. rename s1 into S2.
    destruct (sstore_ok _ _ _ _ _ _ _ _ R1 Qb E2) as (k2 & St2 & R2 & F2 & D2 & _ & _). rewrite <- D1, <- D2 in Qc. ob H. rename s1 into S3.
    destruct (sstore_ok _ _ _ _ _ _ _ _ R2 Qc E3) as (k3 & St3 & R3 & F3 & D3 & _ & _). rewrite <- D1, <- D2, <- D3 in Qd.
    destruct (sstore_ok _ _ _ _ _ _ _ _ R3 Qd H) as (k4 & St4 & R4 & F4 & D4 & _ & _). cbn [m set_m] in *. rewrite N.add_assoc in St2, St3, St4.
    cbn [exec]. rewrite A. cbn [obind]. rewrite Ex. unfold storex. rewrite St1. cbn [obind]. rewrite St2. cbn [obind]. rewrite St3. cbn [obind].
    rewrite St4. cbn [obind]. rewrite (aligned_off _ _ Al). cbn [obind]. eexists _, rho. split; [reflexivity|]. split; [exact R4|].
    split; [|rewrite D4, D3, D2, D1; apply ext_refl]. cbn [m set_m]. eapply frame_trans; [exact F1|]. eapply frame_trans; [exact F2|].
    eapply frame_trans; [exact F3|exact F4].
  - (* MOVX *) ob H. injection H as <-. eexists _, rho. split; [reflexivity|]. split; [|split; [apply frame_refl|apply ext_refl]].
    apply R_set_x; [exact HR|]. now apply (rX _ _ _ HR).
  - (* PSHUFD *) ob H. injection H as <-. eexists _, rho. split; [reflexivity|]. split; [|split; [apply frame_refl|apply ext_refl]].
    apply R_set_x; [exact HR|]. apply shuffle_ok. now apply (rX _ _ _ HR).
  - (* PADDD *) ob H. ob H. ob H. destruct p as [k S1]. injection H as <-.
    destruct (qmk2_ok sorted add32 _ _ _ _ _ _ _ _ _ HR sem_sorted add32_below (rX _ _ _ HR _ _ E0) (rX _ _ _ HR _ _ E) E1) as (r1 & R1 & X1 & Q1).
    eexists _, r1. split; [reflexivity|]. split; [|split; [apply frame_refl|exact X1]]. now apply R_set_x.
  - (* PADDM *) ob H. destruct p as [o a]. ob H. ob H. ob H. destruct p as [k S1]. injection H as <-. pose proof (saddr_ok _ _ _ _ _ _ _ HR E) as A.
    destruct (sloadx_ok _ _ _ _ _ _ HR E0) as (q' & Lq & Hq).
    destruct (qmk2_ok sorted add32 _ _ _ _ _ _ _ _ _ HR sem_sorted add32_below (rX _ _ _ HR _ _ E1) Hq E2) as (r1 & R1 & X1 & Q1).
    cbn [exec]. rewrite A. cbn [obind]. rewrite Lq. cbn [obind].
    eexists _, r1. split; [reflexivity|]. split; [|split; [apply frame_refl|exact X1]]. now apply R_set_x.
  - (* PXOR *) ob H. ob H. ob H. destruct p as [k S1]. injection H as <-.
    destruct (qmk2_ok NXor N.lxor _ _ _ _ _ _ _ _ _ HR ltac:(reflexivity) lxor_below (rX _ _ _ HR _ _ E0) (rX _ _ _ HR _ _ E) E1) as (r1 & R1 & X1 & Q1).
    eexists _, r1. split; [reflexivity|]. split; [|split; [apply frame_refl|exact X1]]. now apply R_set_x.
  - (* PSLLD *) ob H. ob H. destruct p as [k S1]. injection H as <-.
    destruct (qmk2_ok (fun a _ => NShl n a) (fun a _ => shl32 n a) _ _ _ _ _ _ _ _ _ HR ltac:(reflexivity)
      ltac:(intros; apply N.mod_lt; now unfold W32) (rX _ _ _ HR _ _ E) (rX _ _ _ HR _ _ E) E0) as (r1 & R1 & X1 & Q1).
    rewrite <- qmap_qmap2 in Q1. eexists _, r1. split; [reflexivity|]. split; [|split; [apply frame_refl|exact X1]]. now apply R_set_x.
  - (* PSRLD *) ob H. ob H. destruct p as [k S1]. injection H as <-.
    destruct (qmk2_ok (fun a _ => NShr n a) (fun a _ => shr32 n a) _ _ _ _ _ _ _ _ _ HR ltac:(reflexivity)
      ltac:(intros; unfold shr32; eapply N.le_lt_trans; [apply N.div_le_upper_bound with (q := a); [apply N.pow_nonzero; lia|]|eassumption];
            pose proof (N.pow_nonzero 2 n ltac:(lia)); nia) (rX _ _ _ HR _ _ E) (rX _ _ _ HR _ _ E) E0) as (r1 & R1 & X1 & Q1).
    rewrite <- qmap_qmap2 in Q1. eexists _, r1. split; [reflexivity|]. split; [|split; [apply frame_refl|exact X1]]. now apply R_set_x.
  - (* MOVD *) ob H. destruct q as [lo hi c0 d0]. injection H as <-. pose proof (rX _ _ _ HR _ _ E) as Q. cbn [exec].
    destruct (x s s0) as [a1 b1 c1 d1]. cbn in Q. destruct Q as ((A1 & <- & A3) & (B1 & <- & B3) & _). eexists _, rho. split; [reflexivity|].
    split; [|split; [apply frame_refl|apply ext_refl]]. apply R_set_g; [exact HR|]. cbn. repeat split; auto.
Qed.
Lemma symrun_ok l S rho s S' : symrun win l S = Some S' -> R S rho s -> sim S rho s S' (seq size l s).
Proof.
  revert S rho s. induction l as [|i l IH]; intros S rho s H HR; cbn [symrun seq] in *.
  - injection H as <-. exists s, rho. split; [reflexivity|]. split; [exact HR|]. split; [apply frame_refl|apply ext_refl].
  - ob H. destruct (symexec_ok _ _ _ _ _ E HR) as (s1 & r1 & -> & R1 & F1 & X1). cbn [obind].
    destruct (IH _ _ _ H R1) as (s2 & r2 & -> & R2 & F2 & X2). exists s2, r2. split; [reflexivity|]. split; [exact R2|].
    split; [eapply frame_trans; eassumption|eapply ext_trans; eassumption].
Qed.
End Sound.

Lemma tree_ok n d rho i : J d rho -> eval rho (tree n (tb d) i) = rho i.
Proof.
  intros HJ. revert i. induction n as [|n IH]; intros i; cbn; [reflexivity|]. destruct (find_key i (tb d)) as [k|] eqn:E; [|reflexivity].
  apply find_key_in in E. destruct (HJ _ _ E) as (H & _). destruct k; cbn in H |- *; rewrite ?IH; now symmetry.
Qed.
Lemma eval_below z f h e : below z e = true -> (forall i, i < z -> f i = h i) -> eval f e = eval h e.
Proof.
  intros H E. induction e; cbn in *; rewrite ?andb_true_iff, ?N.ltb_lt in H; try reflexivity; try (now rewrite E);
    try (now rewrite IHe); destruct H as [H1 H2]; now rewrite IHe1, IHe2.
Qed.

(** The specification's steps *)
Definition rel (d : dag) (rho : N -> N) (y : list N) (z : list N) : Prop := Forall2 (fun i v => i < nx d /\ rho i = v) y z.
Lemma rel_ext d d' rho rho' y z : ext d d' rho rho' -> rel d rho y z -> rel d' rho' y z.
Proof. intros [A B] H. induction H as [|i v y z [H1 H2] H IH]; constructor; [|exact IH]. split; [lia|]. now rewrite B. Qed.
Lemma rel_nth d rho y z i : rel d rho y z -> (i < List.length y)%nat -> nth i y 0 < nx d /\ rho (nth i y 0) = nth i z 0.
Proof.
  intros H. revert i. induction H as [|j v y z H1 H IH]; intros i Hi; cbn in *; [lia|]. destruct i; [exact H1|]. apply IH. lia.
Qed.
Lemma rel_replace d rho y z i k v : rel d rho y z -> k < nx d -> rho k = v -> rel d rho (replace i k y) (replace i v z).
Proof.
  intros H Hk Hv. revert i. induction H as [|j w y z H1 H IH]; intros i; cbn; [constructor|]. destruct i; constructor; auto. apply IH.
Qed.
Lemma replace_length {A} i (v : A) l : List.length (replace i v l) = List.length l.
Proof. revert i. induction l as [|y l IH]; intros [|i]; cbn; auto. Qed.
Lemma lor_add a b n : a < 2 ^ n -> N.lxor (b * 2 ^ n) a = b * 2 ^ n + a.
Proof.
  intros H. symmetry. apply N.add_nocarry_lxor. apply N.bits_inj. intros i. rewrite N.land_spec, N.bits_0.
  destruct (N.ltb_spec i n) as [L|L].
  - now rewrite N.mul_pow2_bits_low by exact L.
  - replace (N.testbit a i) with false; [apply andb_false_r|]. symmetry. destruct (N.eq_dec a 0) as [->|Ha]; [apply N.bits_0|].
    apply N.bits_above_log2. apply N.log2_lt_pow2; [lia|]. eapply N.lt_le_trans; [exact H|]. apply N.pow_le_mono_r; lia.
Qed.
Lemma rotl_xor w n a : 0 < n -> n < 32 -> a < W32 -> N.lxor (N.lxor w (shl32 n a)) (shr32 (32 - n) a) = N.lxor w (rotl n a).
Proof.
  intros H0 Hn Ha. rewrite N.lxor_assoc. f_equal. unfold shl32, shr32, rotl. change (2 ^ 32) with W32.
  assert (P : W32 = 2 ^ (32 - n) * 2 ^ n) by (rewrite <- N.pow_add_r; unfold W32; f_equal; lia).
  assert (E : (a * 2 ^ n) mod W32 = (a mod 2 ^ (32 - n)) * 2 ^ n).
  { rewrite P, N.mul_mod_distr_r by (apply N.pow_nonzero; lia). reflexivity. }
  rewrite E. apply lor_add. apply N.div_lt_upper_bound; [apply N.pow_nonzero; lia|]. now rewrite <- P.
Qed.
Definition good (t : nat * nat * nat * N) : bool := let '(i, j, k, n) := t in (Nat.ltb i 16 && Nat.ltb j 16 && Nat.ltb k 16 && (0 <? n) && (n <? 32))%bool.
Lemma smix_ok t y d rho z y' d' : J d rho -> rel d rho y z -> List.length y = 16%nat -> good t = true -> smix t y d = Some (y', d') ->
  exists rho', J d' rho' /\ ext d d' rho rho' /\ rel d' rho' y' (mix t z) /\ List.length y' = 16%nat.
Proof.
  intros HJ HR Hl Hg H. destruct t as [[[i j] k] n]. unfold good in Hg. rewrite !andb_true_iff, !Nat.ltb_lt, !N.ltb_lt in Hg.
  destruct Hg as ((((Hi & Hj) & Hk) & Hn0) & Hn). unfold smix in H.
  destruct (rel_nth _ _ _ _ i HR ltac:(lia)) as [Li Vi]. destruct (rel_nth _ _ _ _ j HR ltac:(lia)) as [Lj Vj].
  destruct (rel_nth _ _ _ _ k HR ltac:(lia)) as [Lk Vk].
  ob H. destruct p as [a d1]. destruct (mk_ok _ _ _ _ _ HJ E) as (r1 & J1 & X1 & L1 & V1).
  ob H. destruct p as [l d2]. destruct (mk_ok _ _ _ _ _ J1 E0) as (r2 & J2 & X2 & L2 & V2).
  ob H. destruct p as [p d3]. destruct (mk_ok _ _ _ _ _ J2 E1) as (r3 & J3 & X3 & L3 & V3).
  ob H. destruct p0 as [r d4]. destruct (mk_ok _ _ _ _ _ J3 E2) as (r4 & J4 & X4 & L4 & V4).
  ob H. destruct p0 as [q d5]. destruct (mk_ok _ _ _ _ _ J4 E3) as (r5 & J5 & X5 & L5 & V5).
  injection H as <- <-. exists r5. split; [exact J5|].
  assert (X02 := ext_trans _ _ _ _ _ _ X1 X2). assert (X05 : ext d d5 rho r5).
  { eapply ext_trans; [exact X02|]. eapply ext_trans; [exact X3|]. eapply ext_trans; [exact X4|exact X5]. }
  split; [exact X05|]. split; [|now rewrite replace_length]. apply rel_replace; [now apply rel_ext with (1 := X05)|exact L5|].
  rewrite sem_sorted in V1. cbn [sem] in V2, V3, V4, V5.
  destruct X02 as [_ X02]. destruct X2 as [N2 X2]. destruct X3 as [_ X3]. destruct X4 as [_ X4].
  assert (L1' : a < nx d2) by lia. rewrite V5, (X4 p L3), V3, V2, V4, (X3 a L1'), (X2 a L1).
  rewrite X02 by exact Li. rewrite Vi, V1, Vj, Vk. apply rotl_xor; [exact Hn0|exact Hn|]. apply N.mod_lt. now unfold W32.
Qed.
Lemma smixes_ok l y d rho z y' d' : J d rho -> rel d rho y z -> List.length y = 16%nat -> forallb good l = true -> smixes l y d = Some (y', d') ->
  exists rho', J d' rho' /\ ext d d' rho rho' /\ rel d' rho' y' (fold_left (fun y t => mix t y) l z).
Proof.
  revert y d rho z. induction l as [|t l IH]; intros y d rho z HJ HR Hl Hg H; cbn in *.
  - injection H as <- <-. exists rho. split; [exact HJ|]. split; [apply ext_refl|exact HR].
  - apply andb_true_iff in Hg. destruct Hg as [G1 G2]. ob H. destruct p as [y1 d1].
    destruct (smix_ok _ _ _ _ _ _ _ HJ HR Hl G1 E) as (r1 & J1 & X1 & R1 & Hl1).
    destruct (IH _ _ _ _ J1 R1 Hl1 G2 H) as (r2 & J2 & X2 & R2). exists r2. split; [exact J2|]. split; [eapply ext_trans; eassumption|exact R2].
Qed.
