(** Proofs about the timer queue *)
From Coq Require Import Permutation Sorted.
From Verif Require Import Base BufferModel QueueModel QueueSpec.

(** ** Memory *)
Lemma find_map_set : forall (i : N) (c : cell) j (m : list (N * cell)),
  find (fun x => N.eqb (fst x) j) (map (fun x => if N.eqb (fst x) i then (i, c) else x) m) =
  match find (fun x => N.eqb (fst x) j) m with Some x => Some (if N.eqb j i then (i, c) else x) | None => None end.
Proof.
  intros i c j m. induction m as [|[k d] m IH]; [reflexivity|]. cbn [map find fst]. destruct (N.eqb_spec k i) as [->|N].
  - cbn [fst]. destruct (N.eqb_spec i j) as [->|M]; [rewrite N.eqb_refl; reflexivity | exact IH].
  - cbn [fst]. destruct (N.eqb_spec k j) as [->|M]; [|exact IH]. destruct (N.eqb_spec j i); [contradiction | reflexivity].
Qed.
Lemma getc_setc : forall h i c j, getc (setc h i c) j = match getc h j with Some d => Some (if N.eqb j i then c else d) | None => None end.
Proof.
  intros h i c j. unfold getc, setc. cbn [h_mem]. rewrite find_map_set. destruct (find (fun x => N.eqb (fst x) j) (h_mem h)) as [x|]; [|reflexivity]. destruct (N.eqb j i); reflexivity.
Qed.
Lemma getc_same : forall h i c d, getc h i = Some d -> getc (setc h i c) i = Some c.
Proof. intros h i c d H. rewrite getc_setc, H, N.eqb_refl. reflexivity. Qed.
Lemma getc_other : forall h i c j, j <> i -> getc (setc h i c) j = getc h j.
Proof. intros h i c j N. rewrite getc_setc. destruct (getc h j); [|reflexivity]. destruct (N.eqb_spec j i); [contradiction | reflexivity]. Qed.
Lemma read_get : forall h i c, getc h i = Some c -> read h i = Ok c.
Proof. intros h i c H. unfold read. rewrite H. reflexivity. Qed.

(** ** Forests *)
Inductive forest : Type := FNil | FCons (i : N) (v : Z) (cs rest : forest).
Fixpoint ids (f : forest) : list N := match f with FNil => [] | FCons i _ cs rest => i :: ids cs ++ ids rest end.
Fixpoint elems (f : forest) : list (N * Z) := match f with FNil => [] | FCons i v cs rest => (i, v) :: elems cs ++ elems rest end.
Fixpoint hord (lo : Z) (f : forest) : Prop := match f with FNil => True | FCons i v cs rest => (lo <= v)%Z /\ hord v cs /\ hord lo rest end.
Fixpoint width (f : forest) : nat := match f with FNil => 0 | FCons _ _ _ rest => S (width rest) end.

Lemma ids_elems : forall f, ids f = map fst (elems f).
Proof. intros f. induction f as [|i v cs IH1 rest IH2]; [reflexivity|]. cbn [ids elems map fst]. rewrite map_app, IH1, IH2. reflexivity. Qed.
Lemma hord_le : forall f lo lo', (lo' <= lo)%Z -> hord lo f -> hord lo' f.
Proof. intros f. induction f as [|i v cs IH1 rest IH2]; intros lo lo' H Hf; [exact I|]. cbn [hord] in *. destruct Hf as (A & B & C). split; [lia|]. split; [exact B | exact (IH2 lo lo' H C)]. Qed.
Lemma hord_elems : forall f lo i v, hord lo f -> In (i, v) (elems f) -> (lo <= v)%Z.
Proof.
  intros f. induction f as [|j w cs IH1 rest IH2]; intros lo i v H Hi; [contradiction|]. cbn [hord elems In] in *. destruct H as (A & B & C). destruct Hi as [E|Hi]; [injection E as -> ->; exact A|].
  apply in_app_or in Hi. destruct Hi as [Hi|Hi]; [specialize (IH1 w i v B Hi); lia | exact (IH2 lo i v C Hi)].
Qed.

Fixpoint rep (h : heap) (l : loc) (hd : option N) (f : forest) : Prop :=
  match f with
  | FNil => hd = None
  | FCons i v cs rest => hd = Some i /\ exists c, getc h i = Some c /\ c_pprev c = Some l /\ c_value c = v /\ rep h (LChildren i) (c_children c) cs /\ rep h (LNext i) (c_next c) rest
  end.
Lemma rep_frame : forall f h h' l hd, (forall i, In i (ids f) -> getc h' i = getc h i) -> rep h l hd f -> rep h' l hd f.
Proof.
  intros f. induction f as [|i v cs IH1 rest IH2]; intros h h' l hd H Hr; [exact Hr|]. cbn [rep ids] in *. destruct Hr as (-> & c & Hc & Hp & Hv & Hcs & Hrest). split; [reflexivity|]. exists c.
  split; [rewrite H; [exact Hc | left; reflexivity]|]. split; [exact Hp|]. split; [exact Hv|]. split.
  - apply (IH1 h); [|exact Hcs]. intros j Hj. apply H. right. apply in_or_app. left. exact Hj.
  - apply (IH2 h); [|exact Hrest]. intros j Hj. apply H. right. apply in_or_app. right. exact Hj.
Qed.
Lemma rep_alloc : forall f h l hd i, rep h l hd f -> In i (ids f) -> exists c, getc h i = Some c /\ c_pprev c <> None.
Proof.
  intros f. induction f as [|j v cs IH1 rest IH2]; intros h l hd i Hr Hi; [contradiction|]. cbn [rep ids] in *. destruct Hr as (_ & c & Hc & Hp & Hv & Hcs & Hrest). destruct Hi as [<-|Hi]; [exists c; split; [exact Hc | congruence]|].
  apply in_app_or in Hi. destruct Hi as [Hi|Hi]; [exact (IH1 _ _ _ _ Hcs Hi) | exact (IH2 _ _ _ _ Hrest Hi)].
Qed.
Lemma rep_elems : forall f h l hd i v, rep h l hd f -> In (i, v) (elems f) -> exists c, getc h i = Some c /\ c_value c = v.
Proof.
  intros f. induction f as [|j w cs IH1 rest IH2]; intros h l hd i v Hr Hi; [contradiction|]. cbn [rep elems] in *. destruct Hr as (_ & c & Hc & Hp & Hv & Hcs & Hrest). destruct Hi as [E|Hi]; [injection E as -> ->; exists c; split; assumption|].
  apply in_app_or in Hi. destruct Hi as [Hi|Hi]; [exact (IH1 _ _ _ _ _ Hcs Hi) | exact (IH2 _ _ _ _ _ Hrest Hi)].
Qed.
(** Moving a list: only the back link of its first entry changes *)
Lemma rep_move : forall f h l hd i l', NoDup (ids f) -> rep h l hd f -> hd = Some i -> exists h', set_pprev h i (Some l') = Ok h' /\ h_root h' = h_root h /\ length (h_mem h') = length (h_mem h) /\ rep h' l' hd f /\
  (forall j, j <> i -> getc h' j = getc h j).
Proof.
  intros f h l hd i l' Hd Hr ->. destruct f as [|i' v cs rest]; [discriminate Hr|]. cbn [rep] in Hr. destruct Hr as (E & c & Hc & Hp & Hv & Hcs & Hrest). injection E as <-.
  cbn [ids] in Hd. inversion Hd as [|? ? Hn Hd']; subst. unfold set_pprev. rewrite (read_get _ _ _ Hc). cbn [bind]. eexists. split; [reflexivity|]. split; [reflexivity|]. split; [cbn [setc h_mem]; apply map_length|]. split.
  - cbn [rep]. split; [reflexivity|]. eexists. split; [exact (getc_same _ _ _ _ Hc)|]. cbn [c_pprev c_value c_children c_next]. split; [reflexivity|]. split; [reflexivity|]. split.
    + apply (rep_frame cs h); [|exact Hcs]. intros j Hj. apply getc_other. intros ->. apply Hn. apply in_or_app. left. exact Hj.
    + apply (rep_frame rest h); [|exact Hrest]. intros j Hj. apply getc_other. intros ->. apply Hn. apply in_or_app. right. exact Hj.
  - intros j N. apply getc_other. exact N.
Qed.

(** A detached tree *)
Definition single (h : heap) (i : N) (v : Z) (cs : forest) : Prop :=
  exists c, getc h i = Some c /\ c_next c = None /\ c_value c = v /\ rep h (LChildren i) (c_children c) cs.
Lemma single_frame : forall h h' i v cs, (forall j, In j (i :: ids cs) -> getc h' j = getc h j) -> single h i v cs -> single h' i v cs.
Proof.
  intros h h' i v cs H (c & Hc & Hn & Hv & Hr). exists c. split; [rewrite H; [exact Hc | left; reflexivity]|]. split; [exact Hn|]. split; [exact Hv|]. apply (rep_frame cs h); [|exact Hr]. intros j Hj. apply H. right. exact Hj.
Qed.

(** Frame conditions *)
Definition same_outside (h h' : heap) (l : list N) : Prop :=
  h_root h' = h_root h /\ length (h_mem h') = length (h_mem h) /\ forall j, ~ In j l -> getc h' j = getc h j.
Lemma outside_refl : forall h l, same_outside h h l. Proof. intros h l. split; [reflexivity|]. split; reflexivity. Qed.
Lemma outside_trans : forall h1 h2 h3 l, same_outside h1 h2 l -> same_outside h2 h3 l -> same_outside h1 h3 l.
Proof. intros h1 h2 h3 l (A1 & B1 & C1) (A2 & B2 & C2). split; [congruence|]. split; [congruence|]. intros j Hj. rewrite (C2 j Hj). exact (C1 j Hj). Qed.
Lemma outside_incl : forall h h' l l', incl l l' -> same_outside h h' l -> same_outside h h' l'.
Proof. intros h h' l l' Hi (A & B & C). split; [exact A|]. split; [exact B|]. intros j Hj. apply C. intros X. apply Hj. apply Hi. exact X. Qed.

Lemma set_pprev_ok : forall h i c l, getc h i = Some c -> exists h', set_pprev h i l = Ok h' /\ same_outside h h' [i] /\ getc h' i = Some (mk_cell l (c_next c) (c_children c) (c_value c)).
Proof. intros h i c l H. unfold set_pprev. rewrite (read_get _ _ _ H). cbn [bind]. eexists. split; [reflexivity|]. split; [|exact (getc_same _ _ _ _ H)]. split; [reflexivity|]. split; [apply map_length|]. intros j Hj. apply getc_other. intros ->. apply Hj. left. reflexivity. Qed.
Lemma set_next_ok : forall h i c n, getc h i = Some c -> exists h', set_next h i n = Ok h' /\ same_outside h h' [i] /\ getc h' i = Some (mk_cell (c_pprev c) n (c_children c) (c_value c)).
Proof. intros h i c l H. unfold set_next. rewrite (read_get _ _ _ H). cbn [bind]. eexists. split; [reflexivity|]. split; [|exact (getc_same _ _ _ _ H)]. split; [reflexivity|]. split; [apply map_length|]. intros j Hj. apply getc_other. intros ->. apply Hj. left. reflexivity. Qed.
Lemma set_children_ok : forall h i c n, getc h i = Some c -> exists h', set_children h i n = Ok h' /\ same_outside h h' [i] /\ getc h' i = Some (mk_cell (c_pprev c) (c_next c) n (c_value c)).
Proof. intros h i c l H. unfold set_children. rewrite (read_get _ _ _ H). cbn [bind]. eexists. split; [reflexivity|]. split; [|exact (getc_same _ _ _ _ H)]. split; [reflexivity|]. split; [apply map_length|]. intros j Hj. apply getc_other. intros ->. apply Hj. left. reflexivity. Qed.
Lemma set_value_ok : forall h i c v, getc h i = Some c -> exists h', set_value h i v = Ok h' /\ same_outside h h' [i] /\ getc h' i = Some (mk_cell (c_pprev c) (c_next c) (c_children c) v).
Proof. intros h i c l H. unfold set_value. rewrite (read_get _ _ _ H). cbn [bind]. eexists. split; [reflexivity|]. split; [|exact (getc_same _ _ _ _ H)]. split; [reflexivity|]. split; [apply map_length|]. intros j Hj. apply getc_other. intros ->. apply Hj. left. reflexivity. Qed.

(** ** Merging *)
Lemma link_child : forall h lo vlo cslo hi vhi cshi, single h lo vlo cslo -> single h hi vhi cshi -> NoDup (lo :: ids cslo ++ hi :: ids cshi) ->
  exists h', pqueue_link h (LChildren lo) hi = Ok h' /\ single h' lo vlo (FCons hi vhi cshi cslo) /\ same_outside h h' (lo :: ids cslo ++ hi :: ids cshi) /\
    (forall c, getc h lo = Some c -> exists c', getc h' lo = Some c' /\ c_pprev c' = c_pprev c).
Proof.
  intros h lo vlo cslo hi vhi cshi (cl & Hl & Nl & Vl & Rl) (ch & Hh & Nh & Vh & Rh) Hd. inversion Hd as [|? ? Hlo Hd']; subst.
  assert (Nlh : lo <> hi) by (intros ->; apply Hlo; apply in_or_app; right; left; reflexivity).
  pose proof (NoDup_remove_2 _ _ _ Hd') as Hhi. pose proof (NoDup_remove_1 _ _ _ Hd') as Hcc.
  assert (Hlo1 : ~ In lo (ids cslo)) by (intros X; apply Hlo; apply in_or_app; left; exact X).
  assert (Hlo2 : ~ In lo (ids cshi)) by (intros X; apply Hlo; apply in_or_app; right; right; exact X).
  assert (Hhi1 : ~ In hi (ids cslo)) by (intros X; apply Hhi; apply in_or_app; left; exact X).
  assert (Hhi2 : ~ In hi (ids cshi)) by (intros X; apply Hhi; apply in_or_app; right; exact X).
  assert (Hdis : forall j, In j (ids cslo) -> ~ In j (ids cshi)).
  { intros j J1 J2. clear - Hcc J1 J2. induction (ids cslo) as [|x t IHt]; [contradiction|]. cbn [app] in Hcc. inversion Hcc as [|? ? Hn Hcc']; subst. destruct J1 as [->|J1]; [apply Hn; apply in_or_app; right; exact J2 | exact (IHt Hcc' J1)]. }
  assert (Hdl : NoDup (ids cslo)) by (clear - Hcc; induction (ids cslo) as [|x t IHt]; [constructor|]; cbn [app] in Hcc; inversion Hcc as [|? ? Hn Hcc']; subst; constructor; [intros X; apply Hn; apply in_or_app; left; exact X | exact (IHt Hcc')]).
  unfold pqueue_link. rewrite (read_get _ _ _ Hh). cbn [bind]. rewrite Nh. cbn [is_some].
  destruct (set_pprev_ok h hi ch (Some (LChildren lo)) Hh) as (h1 & E1 & (S1a & S1b & S1) & G1). rewrite E1. cbn [bind load].
  assert (Hl1 : getc h1 lo = Some cl) by (rewrite S1; [exact Hl | intros [X|[]]; congruence]). rewrite (read_get _ _ _ Hl1). cbn [bind].
  destruct (set_next_ok h1 hi _ (c_children cl) G1) as (h2 & E2 & (S2a & S2b & S2) & G2). rewrite E2. cbn [bind c_pprev c_children c_value] in *.
  assert (Rl2 : rep h2 (LChildren lo) (c_children cl) cslo).
  { apply (rep_frame cslo h); [|exact Rl]. intros j Hj. assert (j <> hi) by (intros ->; contradiction). rewrite S2, S1; [reflexivity | |]; intros [X|[]]; congruence. }
  assert (H3 : exists h3, match c_children cl with Some n => set_pprev h2 n (Some (LNext hi)) | None => Ok h2 end = Ok h3 /\ h_root h3 = h_root h2 /\ length (h_mem h3) = length (h_mem h2) /\ rep h3 (LNext hi) (c_children cl) cslo /\ (forall j, ~ In j (ids cslo) -> getc h3 j = getc h2 j)).
  { destruct (c_children cl) as [n|] eqn:En.
    - destruct (rep_move cslo h2 _ _ n (LNext hi) Hdl Rl2 eq_refl) as (h3 & E3 & A & B & C & D). exists h3. split; [exact E3|]. split; [exact A|]. split; [exact B|]. split; [exact C|].
      intros j Hj. apply D. intros ->. apply Hj. destruct cslo as [|k w a b]; [discriminate Rl2|]. cbn [rep] in Rl2. destruct Rl2 as (X & _). injection X as ->. left. reflexivity.
    - exists h2. split; [reflexivity|]. split; [reflexivity|]. split; [reflexivity|]. split; [|reflexivity]. destruct cslo as [|k w a b]; [reflexivity|]. destruct Rl2 as (X & _). discriminate X. }
  destruct H3 as (h3 & E3 & R3a & R3b & R3 & S3). rewrite E3. cbn [bind store].
  assert (Hl3 : getc h3 lo = Some cl). { rewrite S3 by exact Hlo1. rewrite S2 by (intros [X|[]]; congruence). exact Hl1. }
  destruct (set_children_ok h3 lo cl (Some hi) Hl3) as (h4 & E4 & (S4a & S4b & S4) & G4). rewrite E4. exists h4. split; [reflexivity|].
  assert (Gh : getc h4 hi = Some (mk_cell (Some (LChildren lo)) (c_children cl) (c_children ch) (c_value ch))).
  { rewrite S4 by (intros [X|[]]; congruence). rewrite S3 by exact Hhi1. exact G2. }
  split; [|split].
  - eexists. split; [exact G4|]. cbn [c_next c_value c_children rep]. split; [exact Nl|]. split; [reflexivity|]. split; [reflexivity|]. eexists. split; [exact Gh|]. cbn [c_pprev c_value c_children c_next]. split; [reflexivity|]. split; [reflexivity|]. split.
    + apply (rep_frame cshi h); [|exact Rh]. intros j Hj. assert (j <> hi) by (intros ->; contradiction). assert (j <> lo) by (intros ->; contradiction). rewrite S4 by (intros [X|[]]; congruence). rewrite S3 by (intros X; exact (Hdis j X Hj)). rewrite S2, S1; [reflexivity | |]; intros [X|[]]; congruence.
    + apply (rep_frame cslo h3); [|exact R3]. intros j Hj. apply S4. intros [X|[]]. subst j. contradiction.
  - split; [congruence|]. split; [congruence|]. intros j Hj. assert (j <> lo) by (intros ->; apply Hj; left; reflexivity). assert (j <> hi) by (intros ->; apply Hj; right; apply in_or_app; right; left; reflexivity).
    rewrite S4 by (intros [X|[]]; congruence). rewrite S3 by (intros X; apply Hj; right; apply in_or_app; left; exact X). rewrite S2, S1; [reflexivity | |]; intros [X|[]]; congruence.
  - intros c Hc. rewrite Hl in Hc. injection Hc as <-. eexists. split; [exact G4 | reflexivity].
Qed.

Lemma NoDup_swap : forall (a b : N) (l1 l2 : list N), NoDup (a :: l1 ++ b :: l2) -> NoDup (b :: l2 ++ a :: l1).
Proof. intros a b l1 l2 H. apply (Permutation_NoDup (l := a :: l1 ++ b :: l2)); [|exact H]. change (a :: l1 ++ b :: l2) with ((a :: l1) ++ (b :: l2)). change (b :: l2 ++ a :: l1) with ((b :: l2) ++ (a :: l1)). apply Permutation_app_comm. Qed.

Lemma merge_two : forall h i1 v1 cs1 i2 v2 cs2, single h i1 v1 cs1 -> single h i2 v2 cs2 -> NoDup (i1 :: ids cs1 ++ i2 :: ids cs2) ->
  exists h' i v cs, pqueue_merge h (Some i1) (Some i2) = Ok (h', i) /\ single h' i v cs /\ same_outside h h' (i1 :: ids cs1 ++ i2 :: ids cs2) /\
    Permutation (elems (FCons i v cs FNil)) (elems (FCons i1 v1 cs1 (FCons i2 v2 cs2 FNil))) /\
    (forall b, hord b (FCons i1 v1 cs1 (FCons i2 v2 cs2 FNil)) -> hord b (FCons i v cs FNil)) /\
    (i = i1 /\ v = v1 \/ i = i2 /\ v = v2).
Proof.
  intros h i1 v1 cs1 i2 v2 cs2 S1 S2 Hd. pose proof S1 as S1'. pose proof S2 as S2'. destruct S1 as (c1 & H1 & N1 & V1 & R1). destruct S2 as (c2 & H2 & N2 & V2 & R2).
  unfold pqueue_merge. rewrite (read_get _ _ _ H1). cbn [bind]. rewrite N1. cbn [is_some]. rewrite (read_get _ _ _ H2). cbn [bind]. rewrite N2. cbn [is_some]. rewrite V1, V2. destruct (Z.ltb_spec v1 v2) as [L|L].
  - destruct (link_child h i1 v1 cs1 i2 v2 cs2 S1' S2' Hd) as (h' & E & Hs & Ho & _). rewrite E. cbn [bind]. exists h', i1, v1, (FCons i2 v2 cs2 cs1). split; [reflexivity|]. split; [exact Hs|]. split; [exact Ho|]. split; [|split; [|left; split; reflexivity]].
    + cbn [elems]. rewrite !app_nil_r. apply perm_skip. cbn [app]. rewrite app_comm_cons. apply Permutation_app_comm.
    + intros b. cbn [hord]. intros (A & B & C & D & _). split; [exact A|]. split; [|exact I]. split; [lia|]. split; [exact D | exact B].
  - apply NoDup_swap in Hd. destruct (link_child h i2 v2 cs2 i1 v1 cs1 S2' S1' Hd) as (h' & E & Hs & Ho & _). rewrite E. cbn [bind]. exists h', i2, v2, (FCons i1 v1 cs1 cs2). split; [reflexivity|]. split; [exact Hs|]. split; [|split; [|split; [|right; split; reflexivity]]].
    + apply (outside_incl h h' (i2 :: ids cs2 ++ i1 :: ids cs1)); [|exact Ho]. intros j Hj. apply (Permutation_in (l := (i2 :: ids cs2) ++ (i1 :: ids cs1))); [apply (Permutation_app_comm (i2 :: ids cs2) (i1 :: ids cs1)) | exact Hj].
    + cbn [elems]. rewrite !app_nil_r. apply (perm_trans (perm_swap _ _ _)). apply perm_skip. apply Permutation_middle.
    + intros b. cbn [hord]. intros (A & B & C & D & _). split; [exact C|]. split; [|exact I]. split; [exact L|]. split; [exact B | exact D].
Qed.

Lemma NoDup_app_iff : forall (a b : list N), NoDup (a ++ b) <-> NoDup a /\ NoDup b /\ (forall x, In x a -> ~ In x b).
Proof.
  intros a b. induction a as [|x a IH]; cbn [app].
  - split; [intros H; split; [constructor|]; split; [exact H | intros x []] | intros (_ & H & _); exact H].
  - split.
    + intros H. inversion H as [|? ? Hn Hd]; subst. apply IH in Hd. destruct Hd as (A & B & C). split; [constructor; [intros X; apply Hn; apply in_or_app; left; exact X | exact A]|]. split; [exact B|].
      intros y [<-|Hy]; [intros X; apply Hn; apply in_or_app; right; exact X | exact (C y Hy)].
    + intros (A & B & C). inversion A as [|? ? Hn Hd]; subst. constructor; [|apply IH; split; [exact Hd|]; split; [exact B|]; intros y Hy; apply C; right; exact Hy].
      intros X. apply in_app_or in X. destruct X as [X|X]; [contradiction | exact (C x (or_introl eq_refl) X)].
Qed.
Lemma perm_ids : forall f g, Permutation (elems f) (elems g) -> Permutation (ids f) (ids g).
Proof. intros f g H. rewrite !ids_elems. apply Permutation_map. exact H. Qed.

(** The result of merging the trees of a forest *)
Definition merged (h : heap) (f : forest) (h' : heap) (i : N) : Prop :=
  exists v cs, single h' i v cs /\ same_outside h h' (ids f) /\ Permutation (elems (FCons i v cs FNil)) (elems f) /\ (forall b, hord b f -> hord b (FCons i v cs FNil)).

Lemma pairs_step : forall h p0 v0 cs0 p1 v1 cs1 rest h1 i1 h2 i2 (sw : bool),
  let two := FCons p0 v0 cs0 (FCons p1 v1 cs1 FNil) in
  NoDup (ids (FCons p0 v0 cs0 (FCons p1 v1 cs1 rest))) ->
  (if sw then merged h rest h1 i1 /\ merged h1 two h2 i2 else merged h two h1 i1 /\ merged h1 rest h2 i2) ->
  let a := if sw then i2 else i1 in let b := if sw then i1 else i2 in
  exists h' i, pqueue_merge h2 (Some a) (Some b) = Ok (h', i) /\ merged h (FCons p0 v0 cs0 (FCons p1 v1 cs1 rest)) h' i.
Proof.
  intros h p0 v0 cs0 p1 v1 cs1 rest h1 i1 h2 i2 sw two Hd Hm a b.
  assert (Eids : Permutation (ids (FCons p0 v0 cs0 (FCons p1 v1 cs1 rest))) (ids two ++ ids rest)).
  { unfold two. cbn [ids app]. rewrite app_nil_r. rewrite <- app_assoc. apply Permutation_refl. }
  assert (Eel : elems (FCons p0 v0 cs0 (FCons p1 v1 cs1 rest)) = elems two ++ elems rest).
  { unfold two. cbn [elems app]. rewrite app_nil_r. rewrite <- app_assoc. reflexivity. }
  pose proof (Permutation_NoDup Eids Hd) as Hd'. apply NoDup_app_iff in Hd'. destruct Hd' as (D1 & D2 & D3).
  assert (G : exists va ca vb cb, single h2 a va ca /\ single h2 b vb cb /\
    Permutation (elems (FCons a va ca FNil)) (elems two) /\ Permutation (elems (FCons b vb cb FNil)) (elems rest) /\ same_outside h h2 (ids two ++ ids rest) /\
    (forall lo, hord lo two -> hord lo (FCons a va ca FNil)) /\ (forall lo, hord lo rest -> hord lo (FCons b vb cb FNil))).
  { destruct sw; subst a b.
    - destruct Hm as [(vr & cr & Sr & Or & Pr & Hr) (vt & ct & St & Ot & Pt & Ht)]. exists vt, ct, vr, cr. split; [exact St|]. split.
      + apply (single_frame h1); [|exact Sr]. intros j Hj. apply Ot. intros X. apply (D3 j X). apply (Permutation_in (l := ids (FCons i1 vr cr FNil))); [exact (perm_ids _ _ Pr) | cbn [ids]; rewrite app_nil_r; exact Hj].
      + split; [exact Pt|]. split; [exact Pr|]. split; [|split; assumption]. apply (outside_trans _ h1); [apply (outside_incl _ _ (ids rest)); [intros j Hj; apply in_or_app; right; exact Hj | exact Or] | apply (outside_incl _ _ (ids two)); [intros j Hj; apply in_or_app; left; exact Hj | exact Ot]].
    - destruct Hm as [(vt & ct & St & Ot & Pt & Ht) (vr & cr & Sr & Or & Pr & Hr)]. exists vt, ct, vr, cr. split.
      + apply (single_frame h1); [|exact St]. intros j Hj. apply Or. apply D3. apply (Permutation_in (l := ids (FCons i1 vt ct FNil))); [exact (perm_ids _ _ Pt) | cbn [ids]; rewrite app_nil_r; exact Hj].
      + split; [exact Sr|]. split; [exact Pt|]. split; [exact Pr|]. split; [|split; assumption]. apply (outside_trans _ h1); [apply (outside_incl _ _ (ids two)); [intros j Hj; apply in_or_app; left; exact Hj | exact Ot] | apply (outside_incl _ _ (ids rest)); [intros j Hj; apply in_or_app; right; exact Hj | exact Or]]. }
  destruct G as (va & ca & vb & cb & Sa & Sb & Pa & Pb & Ho & Ha & Hb).
  assert (Ep : Permutation (ids (FCons a va ca FNil) ++ ids (FCons b vb cb FNil)) (ids two ++ ids rest)) by (apply Permutation_app; apply perm_ids; assumption).
  assert (Ei : a :: ids ca ++ b :: ids cb = ids (FCons a va ca FNil) ++ ids (FCons b vb cb FNil)) by (cbn [ids]; rewrite !app_nil_r; reflexivity).
  assert (Hnd : NoDup (a :: ids ca ++ b :: ids cb)).
  { rewrite Ei. apply (Permutation_NoDup (Permutation_sym Ep)). apply NoDup_app_iff. split; [exact D1|]. split; [exact D2 | exact D3]. }
  destruct (merge_two h2 a va ca b vb cb Sa Sb Hnd) as (h' & i & v & cs & E & Hs & Ho' & Hp & Hh & _). exists h', i. split; [exact E|]. exists v, cs. split; [exact Hs|]. split; [|split].
  - apply (outside_incl h h' (ids two ++ ids rest)); [intros j Hj; exact (Permutation_in _ (Permutation_sym Eids) Hj)|]. apply (outside_trans _ h2); [exact Ho|]. apply (outside_incl _ _ (a :: ids ca ++ b :: ids cb)); [intros j Hj; rewrite Ei in Hj; exact (Permutation_in _ Ep Hj) | exact Ho'].
  - rewrite Eel. apply (perm_trans Hp). assert (Ex : elems (FCons a va ca (FCons b vb cb FNil)) = elems (FCons a va ca FNil) ++ elems (FCons b vb cb FNil)) by (cbn [elems]; rewrite !app_nil_r; reflexivity). rewrite Ex. apply Permutation_app; assumption.
  - intros lo Hl. apply Hh. cbn [hord] in Hl. destruct Hl as (A & B & C & D & F).
    assert (Ht : hord lo two) by (unfold two; cbn [hord]; repeat split; assumption). specialize (Ha lo Ht). specialize (Hb lo F). cbn [hord] in *. destruct Ha as (Ha1 & Ha2 & _). destruct Hb as (Hb1 & Hb2 & _). repeat split; assumption.
Qed.

Lemma merge_none : forall h i v cs, single h i v cs -> pqueue_merge h (Some i) None = Ok (h, i).
Proof. intros h i v cs (c & Hc & Hn & _). unfold pqueue_merge. rewrite (read_get _ _ _ Hc). cbn [bind]. rewrite Hn. reflexivity. Qed.

Lemma pairs_ok : forall right fuel h l hd f, width f <= fuel -> rep h l hd f -> NoDup (ids f) ->
  match f with
  | FNil => pqueue_merge_pairs right fuel h hd = Ok (h, None)
  | _ => exists h' i, pqueue_merge_pairs right fuel h hd = Ok (h', Some i) /\ merged h f h' i
  end.
Proof.
  intros right fuel. induction fuel as [|fuel IH]; intros h l hd f Hw Hr Hd.
  - destruct f as [|p0 v0 cs0 rest]; [cbn [rep] in Hr; subst hd; reflexivity | cbn [width] in Hw; lia].
  - destruct f as [|p0 v0 cs0 rest]; [cbn [rep] in Hr; subst hd; reflexivity|]. cbn [rep] in Hr. destruct Hr as (-> & c0 & H0 & P0 & V0 & R0 & Rr). cbn [pqueue_merge_pairs]. rewrite (read_get _ _ _ H0). cbn [bind]. rewrite P0. cbn [is_some negb].
    destruct rest as [|p1 v1 cs1 rest].
    + cbn [rep] in Rr. rewrite Rr. exists h, p0. split; [reflexivity|]. exists v0, cs0. split; [exists c0; repeat split; assumption|]. split; [apply outside_refl|]. split; [apply Permutation_refl | intros b Hb; exact Hb].
    + cbn [rep] in Rr. destruct Rr as (En & c1 & H1 & P1 & V1 & R1 & Rr). rewrite En. rewrite (read_get _ _ _ H1). cbn [bind].
      pose proof Hd as Hd0. cbn [ids] in Hd0. inversion Hd0 as [|? ? Hn0 Hd1]; subst. apply NoDup_app_iff in Hd1. destruct Hd1 as (Dc0 & Dx & Dd). inversion Dx as [|? ? Hn1 Dy]; subst. apply NoDup_app_iff in Dy. destruct Dy as (Dc1 & Dr & Dd1).
      rewrite in_app_iff in Hn0. cbn [In] in Hn0. rewrite in_app_iff in Hn0. rewrite in_app_iff in Hn1.
      destruct (set_next_ok h p1 c1 None H1) as (h1 & E1 & O1 & G1). rewrite E1. cbn [bind].
      assert (H01 : getc h1 p0 = Some c0) by (rewrite (proj2 (proj2 O1)); [exact H0 | intros [X|[]]; subst; tauto]).
      destruct (set_next_ok h1 p0 c0 None H01) as (h2 & E2 & O2 & G2). rewrite E2. cbn [bind].
      assert (Fr : forall j, j <> p0 -> j <> p1 -> getc h2 j = getc h j).
      { intros j J0 J1. rewrite (proj2 (proj2 O2)) by (intros [X|[]]; congruence). apply (proj2 (proj2 O1)). intros [X|[]]; congruence. }
      assert (G1' : getc h2 p1 = Some (mk_cell (c_pprev c1) None (c_children c1) (c_value c1))) by (rewrite (proj2 (proj2 O2)); [exact G1 | intros [X|[]]; subst; tauto]).
      assert (S0 : single h2 p0 (c_value c0) cs0).
      { eexists. split; [exact G2|]. split; [reflexivity|]. split; [reflexivity|]. cbn [c_children]. apply (rep_frame cs0 h); [|exact R0]. intros j Hj. apply Fr; [intros ->; tauto | intros ->; apply (Dd p1 Hj); left; reflexivity]. }
      assert (S1 : single h2 p1 (c_value c1) cs1).
      { eexists. split; [exact G1'|]. split; [reflexivity|]. split; [reflexivity|]. cbn [c_children]. apply (rep_frame cs1 h); [|exact R1]. intros j Hj. apply Fr; [intros ->; tauto | intros ->; tauto]. }
      assert (Rr2 : rep h2 (LNext p1) (c_next c1) rest).
      { apply (rep_frame rest h); [|exact Rr]. intros j Hj. apply Fr; [intros ->; tauto | intros ->; tauto]. }
      assert (Oh : forall F, In p0 F -> In p1 F -> same_outside h h2 F).
      { intros F F0 F1. split; [rewrite (proj1 O2); exact (proj1 O1)|]. split; [rewrite (proj1 (proj2 O2)); exact (proj1 (proj2 O1))|]. intros j Hj. apply Fr; intros ->; contradiction. }
      set (two := FCons p0 (c_value c0) cs0 (FCons p1 (c_value c1) cs1 FNil)).
      assert (Dt : NoDup (p0 :: ids cs0 ++ p1 :: ids cs1)).
      { constructor; [rewrite in_app_iff; cbn [In]; tauto|]. apply NoDup_app_iff. split; [exact Dc0|]. split; [constructor; [tauto | exact Dc1]|]. intros j J1 J2. apply (Dd j J1). destruct J2 as [->|J2]; [left; reflexivity | right; apply in_or_app; left; exact J2]. }
      assert (Et : ids two = p0 :: ids cs0 ++ p1 :: ids cs1) by (unfold two; cbn [ids]; rewrite !app_nil_r; reflexivity).
      assert (Mt : forall hx, (forall j, In j (ids two) -> getc hx j = getc h2 j) -> exists hy i, pqueue_merge hx (Some p0) (Some p1) = Ok (hy, i) /\ merged hx two hy i).
      { intros hx Hx. destruct (merge_two hx p0 (c_value c0) cs0 p1 (c_value c1) cs1) as (hy & i & v & cs & E & Hs & Ho & Hp & Hh & _).
        - apply (single_frame h2); [|exact S0]. intros j Hj. apply Hx. rewrite Et. destruct Hj as [->|Hj]; [left; reflexivity | right; apply in_or_app; left; exact Hj].
        - apply (single_frame h2); [|exact S1]. intros j Hj. apply Hx. rewrite Et. destruct Hj as [->|Hj]; [right; apply in_or_app; right; left; reflexivity | right; apply in_or_app; right; right; exact Hj].
        - exact Dt.
        - exists hy, i. split; [exact E|]. exists v, cs. split; [exact Hs|]. split; [rewrite Et; exact Ho|]. split; [exact Hp | exact Hh]. }
      assert (Dtr : forall j, In j (ids two) -> ~ In j (ids rest)).
      { intros j Hj. rewrite Et in Hj. destruct Hj as [->|Hj]; [tauto|]. apply in_app_or in Hj. destruct Hj as [Hj|[->|Hj]]; [intros X; apply (Dd j Hj); right; apply in_or_app; right; exact X | tauto | exact (Dd1 j Hj)]. }
      assert (Fin : forall h' i, merged h2 (FCons p0 (c_value c0) cs0 (FCons p1 (c_value c1) cs1 rest)) h' i -> merged h (FCons p0 (c_value c0) cs0 (FCons p1 (c_value c1) cs1 rest)) h' i).
      { intros h' i (v & cs & Hs & Ho & Hp & Hh). exists v, cs. split; [exact Hs|]. split; [|split; assumption]. apply (outside_trans _ h2); [|exact Ho]. apply Oh; cbn [ids In]; rewrite in_app_iff; cbn [In]; tauto. }
      cbn [width] in Hw. destruct right.
      * destruct rest as [|p2 v2 cs2 rest2].
        -- specialize (IH h2 _ _ FNil ltac:(cbn [width]; lia) Rr2 ltac:(constructor)). cbn beta iota in IH. rewrite IH. cbn [bind fst snd]. destruct (Mt h2 (fun j _ => eq_refl)) as (hy & i & E & M). rewrite E. cbn [bind fst snd].
           pose proof M as (v & cs & Hs & _). rewrite (merge_none _ _ _ _ Hs). cbn [bind fst snd]. exists hy, i. split; [reflexivity|]. apply Fin. exact M.
        -- specialize (IH h2 _ _ (FCons p2 v2 cs2 rest2) ltac:(cbn [width] in *; lia) Rr2 Dr). cbn beta iota in IH. destruct IH as (h3 & i3 & E3 & M3). rewrite E3. cbn [bind fst snd].
           destruct (Mt h3) as (h4 & i4 & E4 & M4). { intros j Hj. destruct M3 as (? & ? & _ & O3 & _). apply O3. apply Dtr. exact Hj. }
           rewrite E4. cbn [bind fst snd]. destruct (pairs_step h2 p0 (c_value c0) cs0 p1 (c_value c1) cs1 (FCons p2 v2 cs2 rest2) h3 i3 h4 i4 true Hd (conj M3 M4)) as (h5 & i5 & E5 & M5). cbn beta iota zeta in E5.
           rewrite E5. cbn [bind fst snd]. exists h5, i5. split; [reflexivity | apply Fin; exact M5].
      * destruct (Mt h2 (fun j _ => eq_refl)) as (h3 & i3 & E3 & M3). rewrite E3. cbn [bind fst snd].
        assert (Rr3 : rep h3 (LNext p1) (c_next c1) rest). { apply (rep_frame rest h2); [|exact Rr2]. intros j Hj. destruct M3 as (? & ? & _ & O3 & _). apply O3. intros X. exact (Dtr j X Hj). }
        destruct rest as [|p2 v2 cs2 rest2].
        -- specialize (IH h3 _ _ FNil ltac:(cbn [width]; lia) Rr3 ltac:(constructor)). cbn beta iota in IH. rewrite IH. cbn [bind fst snd]. pose proof M3 as (v & cs & Hs & _). rewrite (merge_none _ _ _ _ Hs). cbn [bind fst snd]. exists h3, i3. split; [reflexivity | apply Fin; exact M3].
        -- specialize (IH h3 _ _ (FCons p2 v2 cs2 rest2) ltac:(cbn [width] in *; lia) Rr3 Dr). cbn beta iota in IH. destruct IH as (h4 & i4 & E4 & M4). rewrite E4. cbn [bind fst snd].
           destruct (pairs_step h2 p0 (c_value c0) cs0 p1 (c_value c1) cs1 (FCons p2 v2 cs2 rest2) h3 i3 h4 i4 false Hd (conj M3 M4)) as (h5 & i5 & E5 & M5). cbn beta iota zeta in E5.
           rewrite E5. cbn [bind fst snd]. exists h5, i5. split; [reflexivity | apply Fin; exact M5].
Qed.

(** ** A place in the queue *)
Inductive ctx : Type := CTop | CChild (i : N) (v : Z) (rest : forest) (k : ctx) | CNext (i : N) (v : Z) (cs : forest) (k : ctx).
Fixpoint plug (k : ctx) (f : forest) : forest :=
  match k with CTop => f | CChild i v rest k => plug k (FCons i v f rest) | CNext i v cs k => plug k (FCons i v cs f) end.
Fixpoint idsc (k : ctx) : list N :=
  match k with CTop => [] | CChild i _ rest k => i :: ids rest ++ idsc k | CNext i _ cs k => i :: ids cs ++ idsc k end.
Fixpoint elemsc (k : ctx) : list (N * Z) :=
  match k with CTop => [] | CChild i v rest k => (i, v) :: elems rest ++ elemsc k | CNext i v cs k => (i, v) :: elems cs ++ elemsc k end.
Fixpoint repc (h : heap) (k : ctx) (l : loc) (hd : option N) : Prop :=
  match k with
  | CTop => l = LRoot /\ h_root h = hd
  | CChild i v rest k => l = LChildren i /\ exists c l', getc h i = Some c /\ c_pprev c = Some l' /\ c_value c = v /\ c_children c = hd /\ rep h (LNext i) (c_next c) rest /\ repc h k l' (Some i)
  | CNext i v cs k => l = LNext i /\ exists c l', getc h i = Some c /\ c_pprev c = Some l' /\ c_value c = v /\ c_next c = hd /\ rep h (LChildren i) (c_children c) cs /\ repc h k l' (Some i)
  end.
Lemma plug_rep : forall k h l hd f, repc h k l hd -> rep h l hd f -> rep h LRoot (h_root h) (plug k f).
Proof.
  intros k. induction k as [|i v rest k IH|i v cs k IH]; intros h l hd f Hk Hf; cbn [repc plug] in *.
  - destruct Hk as [-> ->]. exact Hf.
  - destruct Hk as (-> & c & l' & Hc & Hp & Hv & Hh & Hr & Hk). apply (IH h l' (Some i)); [exact Hk|]. cbn [rep]. split; [reflexivity|]. exists c. subst hd. repeat split; assumption.
  - destruct Hk as (-> & c & l' & Hc & Hp & Hv & Hh & Hr & Hk). apply (IH h l' (Some i)); [exact Hk|]. cbn [rep]. split; [reflexivity|]. exists c. subst hd. repeat split; assumption.
Qed.
Lemma unplug : forall f k h l hd e, repc h k l hd -> rep h l hd f -> In e (ids f) ->
  exists k' v cs rest l', plug k f = plug k' (FCons e v cs rest) /\ repc h k' l' (Some e) /\ rep h l' (Some e) (FCons e v cs rest).
Proof.
  intros f. induction f as [|i v cs IH1 rest IH2]; intros k h l hd e Hk Hf He; [contradiction|]. pose proof Hf as Hf0. cbn [rep] in Hf. destruct Hf as (-> & c & Hc & Hp & Hv & Hcs & Hr). cbn [ids] in He. destruct He as [->|He].
  - exists k, v, cs, rest, l. split; [reflexivity|]. split; assumption.
  - apply in_app_or in He. destruct He as [He|He].
    + destruct (IH1 (CChild i v rest k) h (LChildren i) (c_children c) e) as (k' & v' & cs' & rest' & l' & E & A & B); [|exact Hcs | exact He|].
      * cbn [repc]. split; [reflexivity|]. exists c, l. repeat split; assumption.
      * exists k', v', cs', rest', l'. split; [exact E|]. split; assumption.
    + destruct (IH2 (CNext i v cs k) h (LNext i) (c_next c) e) as (k' & v' & cs' & rest' & l' & E & A & B); [|exact Hr | exact He|].
      * cbn [repc]. split; [reflexivity|]. exists c, l. repeat split; assumption.
      * exists k', v', cs', rest', l'. split; [exact E|]. split; assumption.
Qed.
Lemma plug_elems : forall k f, Permutation (elems (plug k f)) (elems f ++ elemsc k).
Proof.
  intros k. induction k as [|i v rest k IH|i v cs k IH]; intros f; cbn [plug elemsc].
  - rewrite app_nil_r. apply Permutation_refl.
  - apply (perm_trans (IH _)). cbn [elems app]. rewrite <- app_assoc. apply Permutation_middle.
  - apply (perm_trans (IH _)). cbn [elems app]. apply (perm_trans (l' := (i, v) :: elems f ++ elems cs ++ elemsc k)); [|apply Permutation_middle]. apply perm_skip. rewrite app_assoc. apply Permutation_app_tail. apply Permutation_app_comm.
Qed.
Lemma idsc_elemsc : forall k, idsc k = map fst (elemsc k).
Proof. intros k. induction k as [|i v rest k IH|i v cs k IH]; cbn [idsc elemsc map fst]; [reflexivity | |]; rewrite map_app, IH, ids_elems; reflexivity. Qed.
Lemma plug_ids : forall k f, Permutation (ids (plug k f)) (ids f ++ idsc k).
Proof. intros k f. rewrite !ids_elems, idsc_elemsc, <- map_app. apply Permutation_map. apply plug_elems. Qed.
Lemma plug_hord : forall k f g b, (forall lo, hord lo f -> hord lo g) -> hord b (plug k f) -> hord b (plug k g).
Proof.
  intros k. induction k as [|i v rest k IH|i v cs k IH]; intros f g b H; cbn [plug]; [apply H | |]; apply IH; intros lo; cbn [hord]; intros (A & B & C); (split; [exact A|]); split; try assumption; apply H; assumption.
Qed.
Lemma plug_width : forall k f g, width g <= width f -> width (plug k g) <= width (plug k f).
Proof. intros k. induction k as [|i v rest k IH|i v cs k IH]; intros f g H; cbn [plug]; [exact H | |]; apply IH; cbn [width]; lia. Qed.

Lemma repc_frame : forall k h h' l hd, h_root h' = h_root h -> (forall j, In j (idsc k) -> getc h' j = getc h j) -> repc h k l hd -> repc h' k l hd.
Proof.
  intros k. induction k as [|i v rest k IH|i v cs k IH]; intros h h' l hd Hroot H Hk; cbn [repc idsc] in *.
  - destruct Hk as [-> <-]. split; [reflexivity | exact Hroot].
  - destruct Hk as (-> & c & l' & Hc & Hp & Hv & Hh & Hr & Hk). split; [reflexivity|]. exists c, l'. split; [rewrite H; [exact Hc | left; reflexivity]|]. split; [exact Hp|]. split; [exact Hv|]. split; [exact Hh|]. split.
    + apply (rep_frame rest h); [|exact Hr]. intros j Hj. apply H. right. apply in_or_app. left. exact Hj.
    + apply (IH h); [exact Hroot | | exact Hk]. intros j Hj. apply H. right. apply in_or_app. right. exact Hj.
  - destruct Hk as (-> & c & l' & Hc & Hp & Hv & Hh & Hr & Hk). split; [reflexivity|]. exists c, l'. split; [rewrite H; [exact Hc | left; reflexivity]|]. split; [exact Hp|]. split; [exact Hv|]. split; [exact Hh|]. split.
    + apply (rep_frame cs h); [|exact Hr]. intros j Hj. apply H. right. apply in_or_app. left. exact Hj.
    + apply (IH h); [exact Hroot | | exact Hk]. intros j Hj. apply H. right. apply in_or_app. right. exact Hj.
Qed.
Lemma load_repc : forall k h l hd, repc h k l hd -> load h l = Ok hd.
Proof.
  intros k h l hd Hk. destruct k as [|i v rest k|i v cs k]; cbn [repc] in Hk.
  - destruct Hk as [-> <-]. reflexivity.
  - destruct Hk as (-> & c & l' & Hc & _ & _ & Hh & _). cbn [load]. rewrite (read_get _ _ _ Hc). cbn [bind]. rewrite Hh. reflexivity.
  - destruct Hk as (-> & c & l' & Hc & _ & _ & Hh & _). cbn [load]. rewrite (read_get _ _ _ Hc). cbn [bind]. rewrite Hh. reflexivity.
Qed.
Lemma store_repc : forall k h l hd x, NoDup (idsc k) -> repc h k l hd -> exists h', store h l x = Ok h' /\ repc h' k l x /\ length (h_mem h') = length (h_mem h) /\ (forall j, ~ In j (idsc k) -> getc h' j = getc h j).
Proof.
  intros k h l hd x Hd Hk. destruct k as [|i v rest k|i v cs k]; cbn [repc idsc] in *.
  - destruct Hk as [-> _]. cbn [store]. eexists. split; [reflexivity|]. split; [split; reflexivity|]. split; reflexivity.
  - destruct Hk as (-> & c & l' & Hc & Hp & Hv & Hh & Hr & Hk). inversion Hd as [|? ? Hn Hd']; subst. rewrite in_app_iff in Hn. cbn [store]. destruct (set_children_ok h i c x Hc) as (h1 & E & (O1 & O2 & O3) & G). rewrite E. exists h1. split; [reflexivity|].
    split; [|split; [exact O2 | intros j Hj; apply O3; intros [X|[]]; subst; apply Hj; left; reflexivity]]. split; [reflexivity|]. eexists. exists l'. split; [exact G|]. cbn [c_pprev c_value c_children c_next]. split; [exact Hp|]. split; [reflexivity|]. split; [reflexivity|]. split.
    + apply (rep_frame rest h); [|exact Hr]. intros j Hj. apply O3. intros [X|[]]. subst j. tauto.
    + apply (repc_frame k h); [exact O1 | | exact Hk]. intros j Hj. apply O3. intros [X|[]]. subst j. tauto.
  - destruct Hk as (-> & c & l' & Hc & Hp & Hv & Hh & Hr & Hk). inversion Hd as [|? ? Hn Hd']; subst. rewrite in_app_iff in Hn. cbn [store]. destruct (set_next_ok h i c x Hc) as (h1 & E & (O1 & O2 & O3) & G). rewrite E. exists h1. split; [reflexivity|].
    split; [|split; [exact O2 | intros j Hj; apply O3; intros [X|[]]; subst; apply Hj; left; reflexivity]]. split; [reflexivity|]. eexists. exists l'. split; [exact G|]. cbn [c_pprev c_value c_children c_next]. split; [exact Hp|]. split; [reflexivity|]. split; [reflexivity|]. split.
    + apply (rep_frame cs h); [|exact Hr]. intros j Hj. apply O3. intros [X|[]]. subst j. tauto.
    + apply (repc_frame k h); [exact O1 | | exact Hk]. intros j Hj. apply O3. intros [X|[]]. subst j. tauto.
Qed.
(** Moving the back link of the first entry of a list, empty lists included *)
Lemma move_list : forall f h l hd l', NoDup (ids f) -> rep h l hd f -> exists h', match hd with Some n => set_pprev h n (Some l') | None => Ok h end = Ok h' /\ rep h' l' hd f /\ same_outside h h' (ids f).
Proof.
  intros f h l hd l' Hd Hr. destruct hd as [n|].
  - destruct (rep_move f h l (Some n) n l' Hd Hr eq_refl) as (h' & E & A & B & C & D). exists h'. split; [exact E|]. split; [exact C|]. split; [exact A|]. split; [exact B|]. intros j Hj. apply D. intros ->. apply Hj.
    destruct f as [|k w a b]; [discriminate Hr|]. cbn [rep] in Hr. destruct Hr as (X & _). injection X as ->. left. reflexivity.
  - exists h. split; [reflexivity|]. split; [|apply outside_refl]. destruct f as [|k w a b]; [reflexivity|]. destruct Hr as (X & _). discriminate X.
Qed.

Lemma unlink_ok : forall k h l e v cs rest, repc h k l (Some e) -> rep h l (Some e) (FCons e v cs rest) -> NoDup (ids (FCons e v cs rest) ++ idsc k) ->
  exists h' hd, pqueue_unlink h e = Ok h' /\ repc h' k l hd /\ rep h' l hd rest /\ single h' e v cs /\ length (h_mem h') = length (h_mem h) /\ (forall j, ~ In j (e :: ids rest ++ idsc k) -> getc h' j = getc h j).
Proof.
  intros k h l e v cs rest Hk Hf Hd. cbn [rep] in Hf. destruct Hf as (_ & c & Hc & Hp & Hv & Hcs & Hr). cbn [ids app] in Hd. inversion Hd as [|? ? Hn Hd']; subst. rewrite <- app_assoc in Hd'. apply NoDup_app_iff in Hd'. destruct Hd' as (Dc & Drk & Dd). apply NoDup_app_iff in Drk. destruct Drk as (Dr & Dk & Drk).
  rewrite !in_app_iff in Hn. unfold pqueue_unlink. rewrite (read_get _ _ _ Hc). cbn [bind]. rewrite Hp.
  destruct (store_repc k h l (Some e) (c_next c) Dk Hk) as (h1 & E1 & K1 & L1 & O1). rewrite E1. cbn [bind].
  assert (He1 : getc h1 e = Some c) by (rewrite O1; [exact Hc | tauto]). rewrite (read_get _ _ _ He1). cbn [bind]. rewrite Hp.
  assert (R1 : rep h1 (LNext e) (c_next c) rest) by (apply (rep_frame rest h); [intros j Hj; apply O1; exact (Drk j Hj) | exact Hr]).
  destruct (move_list rest h1 _ _ l Dr R1) as (h2 & E2 & R2 & (O2a & O2b & O2)). rewrite E2. cbn [bind].
  assert (He2 : getc h2 e = Some c) by (rewrite O2; [exact He1 | tauto]).
  destruct (set_next_ok h2 e c None He2) as (h3 & E3 & (O3a & O3b & O3) & G3). rewrite E3. exists h3, (c_next c). split; [reflexivity|].
  assert (Fr : forall j, j <> e -> getc h3 j = getc h2 j) by (intros j Hj; apply O3; intros [X|[]]; congruence). split; [|split; [|split; [|split]]].
  - apply (repc_frame k h1); [congruence | | exact K1]. intros j Hj. rewrite Fr by (intros ->; tauto). apply O2. intros X. exact (Drk j X Hj).
  - apply (rep_frame rest h2); [|exact R2]. intros j Hj. apply Fr. intros ->. tauto.
  - eexists. split; [exact G3|]. split; [reflexivity|]. split; [reflexivity|]. cbn [c_children]. apply (rep_frame cs h); [|exact Hcs]. intros j Hj. rewrite Fr by (intros ->; tauto). rewrite O2 by (intros X; apply (Dd j Hj); apply in_or_app; left; exact X). apply O1. intros X. apply (Dd j Hj). apply in_or_app. right. exact X.
  - congruence.
  - intros j Hj. cbn [In] in Hj. rewrite in_app_iff in Hj. rewrite Fr by (intros ->; tauto). rewrite O2 by tauto. apply O1. tauto.
Qed.
Lemma link_ok : forall k h l hd m v cs rest, repc h k l hd -> rep h l hd rest -> single h m v cs -> NoDup (ids (FCons m v cs rest) ++ idsc k) ->
  exists h', pqueue_link h l m = Ok h' /\ repc h' k l (Some m) /\ rep h' l (Some m) (FCons m v cs rest) /\ length (h_mem h') = length (h_mem h) /\ (forall j, ~ In j (m :: ids rest ++ idsc k) -> getc h' j = getc h j).
Proof.
  intros k h l hd m v cs rest Hk Hr (c & Hc & Hn & Hv & Hcs) Hd. cbn [ids app] in Hd. inversion Hd as [|? ? Hnm Hd']; subst. rewrite <- app_assoc in Hd'. apply NoDup_app_iff in Hd'. destruct Hd' as (Dc & Drk & Dd). apply NoDup_app_iff in Drk. destruct Drk as (Dr & Dk & Drk).
  rewrite !in_app_iff in Hnm. unfold pqueue_link. rewrite (read_get _ _ _ Hc). cbn [bind]. rewrite Hn. cbn [is_some].
  destruct (set_pprev_ok h m c (Some l) Hc) as (h1 & E1 & (O1a & O1b & O1) & G1). rewrite E1. cbn [bind].
  assert (Fr1 : forall j, j <> m -> getc h1 j = getc h j) by (intros j Hj; apply O1; intros [X|[]]; congruence).
  assert (K1 : repc h1 k l hd) by (apply (repc_frame k h); [exact O1a | intros j Hj; apply Fr1; intros ->; tauto | exact Hk]). rewrite (load_repc _ _ _ _ K1). cbn [bind].
  destruct (set_next_ok h1 m _ hd G1) as (h2 & E2 & (O2a & O2b & O2) & G2). rewrite E2. cbn [bind c_pprev c_children c_value] in *.
  assert (Fr2 : forall j, j <> m -> getc h2 j = getc h j) by (intros j Hj; rewrite O2 by (intros [X|[]]; congruence); apply Fr1; exact Hj).
  assert (R2 : rep h2 l hd rest) by (apply (rep_frame rest h); [intros j Hj; apply Fr2; intros ->; tauto | exact Hr]).
  destruct (move_list rest h2 _ _ (LNext m) Dr R2) as (h3 & E3 & R3 & (O3a & O3b & O3)). rewrite E3. cbn [bind].
  assert (K3 : repc h3 k l hd). { apply (repc_frame k h); [congruence | | exact Hk]. intros j Hj. rewrite O3 by (intros X; exact (Drk j X Hj)). apply Fr2. intros ->. tauto. }
  destruct (store_repc k h3 l hd (Some m) Dk K3) as (h4 & E4 & K4 & L4 & O4). rewrite E4. exists h4. split; [reflexivity|]. split; [exact K4|]. split; [|split; [congruence|]].
  - cbn [rep]. split; [reflexivity|]. eexists. split; [rewrite O4 by tauto; rewrite O3 by tauto; exact G2|]. cbn [c_pprev c_value c_children c_next]. split; [reflexivity|]. split; [reflexivity|]. split.
    + apply (rep_frame cs h); [|exact Hcs]. intros j Hj. rewrite O4 by (intros X; apply (Dd j Hj); apply in_or_app; right; exact X). rewrite O3 by (intros X; apply (Dd j Hj); apply in_or_app; left; exact X). apply Fr2. intros ->. tauto.
    + apply (rep_frame rest h3); [|exact R3]. intros j Hj. apply O4. exact (Drk j Hj).
  - intros j Hj. cbn [In] in Hj. rewrite in_app_iff in Hj. rewrite O4 by tauto. rewrite O3 by tauto. apply Fr2. intros ->. tauto.
Qed.

(** ** The invariant *)
Definition Inv (h : heap) (F : forest) : Prop :=
  rep h LRoot (h_root h) F /\ NoDup (ids F) /\ width F <= 1 /\ (exists b, hord b F) /\
  (forall i c, getc h i = Some c -> ~ In i (ids F) -> c = mk_cell None None None (c_value c)).
Definition abs (h : heap) : tasks := fun i => match getc h i with Some c => Some (is_some (c_pprev c), c_value c) | None => None end.
Lemma abs_in : forall h F i v, Inv h F -> In (i, v) (elems F) -> abs h i = Some (true, v).
Proof.
  intros h F i v (Hr & _) Hi. destruct (rep_elems _ _ _ _ _ _ Hr Hi) as (c & Hc & Hv). assert (Hin : In i (ids F)) by (rewrite ids_elems; apply in_map_iff; exists (i, v); split; [reflexivity | exact Hi]).
  destruct (rep_alloc _ _ _ _ _ Hr Hin) as (c' & Hc' & Hp). rewrite Hc in Hc'. injection Hc' as <-. unfold abs. rewrite Hc, Hv. destruct (c_pprev c); [reflexivity | contradiction].
Qed.
Lemma abs_true : forall h F i v, Inv h F -> abs h i = Some (true, v) -> In (i, v) (elems F).
Proof.
  intros h F i v HI Ha. pose proof HI as (Hr & _ & _ & _ & Hu). unfold abs in Ha. destruct (getc h i) as [c|] eqn:Hc; [|discriminate]. injection Ha as Hp Hv. destruct (in_dec N.eq_dec i (ids F)) as [X|X].
  - rewrite ids_elems in X. apply in_map_iff in X. destruct X as ([j w] & E & X). cbn [fst] in E. subst j. destruct (rep_elems _ _ _ _ _ _ Hr X) as (c' & Hc' & Hw). rewrite Hc in Hc'. injection Hc' as <-. congruence.
  - rewrite (Hu i c Hc X) in Hp. discriminate Hp.
Qed.

Lemma width_ids : forall f, width f <= length (ids f).
Proof. intros f. induction f as [|i v cs IH1 rest IH2]; [apply Nat.le_refl|]. cbn [width ids length]. rewrite app_length. lia. Qed.
Lemma ids_mem : forall f h, NoDup (ids f) -> (forall i, In i (ids f) -> exists c, getc h i = Some c) -> length (ids f) <= length (h_mem h).
Proof.
  intros f h Hd H. rewrite <- (map_length fst (h_mem h)). apply NoDup_incl_length; [exact Hd|]. intros i Hi. destruct (H i Hi) as (c & Hc). unfold getc in Hc. destruct (find (fun x => N.eqb (fst x) i) (h_mem h)) as [x|] eqn:E; [|discriminate].
  apply find_some in E. destruct E as [E1 E2]. apply N.eqb_eq in E2. apply in_map_iff. exists x. split; assumption.
Qed.

Lemma remove_ok : forall right h F e v, Inv h F -> In (e, v) (elems F) -> exists h' F', pqueue_remove right h e = Ok h' /\ Inv h' F' /\ Permutation (elems F) ((e, v) :: elems F') /\ getc h' e = Some (mk_cell None None None v) /\
  (forall j, ~ In j (ids F) -> getc h' j = getc h j).
Proof.
  intros right h F e v HI He. pose proof HI as (Hr & Hd & Hw & (b & Hb) & Hu). assert (Hin : In e (ids F)) by (rewrite ids_elems; apply in_map_iff; exists (e, v); split; [reflexivity | exact He]).
  destruct (unplug F CTop h LRoot (h_root h) e (conj eq_refl eq_refl) Hr Hin) as (k & v0 & cs & rest & l & EF & Hk & Hf). cbn [plug] in EF. subst F.
  pose proof (plug_ids k (FCons e v0 cs rest)) as Pi. pose proof (plug_elems k (FCons e v0 cs rest)) as Pe. pose proof (Permutation_NoDup Pi Hd) as Hd'.
  pose proof Hf as Hf0. cbn [rep] in Hf0. destruct Hf0 as (_ & c & Hc & Hp & Hv & Hcs & Hrest).
  assert (Ev : v0 = v). { pose proof (abs_in _ _ _ _ HI He) as X. unfold abs in X. rewrite Hc in X. injection X as _ X. congruence. } clear Hv. subst v0.
  unfold pqueue_remove. rewrite (read_get _ _ _ Hc). cbn [bind]. rewrite Hp. clear Hcs Hrest.
  destruct (unlink_ok k h l e v cs rest Hk Hf Hd') as (h1 & hd & E1 & K1 & R1 & S1 & L1 & O1). rewrite E1. cbn [bind]. destruct S1 as (c1 & Hc1 & Hn1 & Hv1 & Hcs1). rewrite (read_get _ _ _ Hc1). cbn [bind].
  pose proof Hd' as Hd2. cbn [ids app] in Hd2. inversion Hd2 as [|? ? Hne Hd3]; subst. rewrite <- app_assoc in Hd3. apply NoDup_app_iff in Hd3. destruct Hd3 as (Dc & Drk & Dd). rewrite !in_app_iff in Hne.
  assert (Hwid : width cs <= length (h_mem h1)).
  { apply (Nat.le_trans _ (length (ids cs))); [apply width_ids|]. apply ids_mem; [exact Dc|]. intros i Hi. destruct (rep_alloc _ _ _ _ _ Hcs1 Hi) as (ci & Hci & _). exists ci. exact Hci. }
  (* the end: e is cleared *)
  assert (Fin : forall h3 g f', repc h3 k l g -> rep h3 l g f' -> Permutation (elems f') (elems cs ++ elems rest) -> width f' <= S (width rest) -> (forall lo, hord lo (FCons e (c_value c1) cs rest) -> hord lo f') ->
    getc h3 e = Some c1 -> (forall j, ~ In j (ids (plug k (FCons e (c_value c1) cs rest))) -> getc h3 j = getc h j) ->
    exists h' F', (do h <- set_pprev h3 e None; set_children h e None) = Ok h' /\ Inv h' F' /\ Permutation (elems (plug k (FCons e (c_value c1) cs rest))) ((e, c_value c1) :: elems F') /\ getc h' e = Some (mk_cell None None None (c_value c1)) /\
      (forall j, ~ In j (ids (plug k (FCons e (c_value c1) cs rest))) -> getc h' j = getc h j)).
  { intros h3 g f' K3 R3 P3 W3 B3 He3 O3. destruct (set_pprev_ok h3 e c1 None He3) as (h4 & E4 & (O4a & O4b & O4) & G4). rewrite E4. cbn [bind]. destruct (set_children_ok h4 e _ None G4) as (h5 & E5 & (O5a & O5b & O5) & G5). rewrite E5.
    cbn [c_pprev c_next c_value] in G5. rewrite Hn1 in G5. exists h5, (plug k f'). split; [reflexivity|].
    assert (Fr : forall j, j <> e -> getc h5 j = getc h3 j) by (intros j Hj; rewrite O5 by (intros [X|[]]; congruence); apply O4; intros [X|[]]; congruence).
    assert (Pids : Permutation (ids f') (ids cs ++ ids rest)) by (rewrite !ids_elems, <- map_app; apply Permutation_map; exact P3).
    assert (PF : Permutation (elems (plug k (FCons e (c_value c1) cs rest))) ((e, c_value c1) :: elems (plug k f'))).
    { apply (perm_trans Pe). cbn [elems app]. apply perm_skip. apply Permutation_sym. apply (perm_trans (plug_elems k f')). apply Permutation_app_tail. exact P3. }
    assert (PI : Permutation (ids (plug k (FCons e (c_value c1) cs rest))) (e :: ids (plug k f'))) by (rewrite !ids_elems; apply (Permutation_map fst) in PF; exact PF).
    pose proof (Permutation_NoDup PI Hd) as Hnd. inversion Hnd as [|? ? Hne' Hnd']; subst.
    assert (Hek : ~ In e (idsc k)) by tauto. assert (Hef : ~ In e (ids f')) by (intros X; apply (Permutation_in _ Pids) in X; apply in_app_or in X; tauto).
    split; [|split; [exact PF|]; split; [exact G5|]; intros j Hj; rewrite Fr; [exact (O3 j Hj) | intros ->; apply Hj; apply (Permutation_in _ (Permutation_sym PI)); left; reflexivity]].
    split; [|split; [exact Hnd'|split; [|split]]].
    - apply (plug_rep k h5 l g f').
      + apply (repc_frame k h3); [congruence | intros j Hj; apply Fr; intros ->; contradiction | exact K3].
      + apply (rep_frame f' h3); [intros j Hj; apply Fr; intros ->; contradiction | exact R3].
    - apply (Nat.le_trans _ (width (plug k (FCons e (c_value c1) cs rest)))); [apply plug_width; cbn [width]; exact W3 | exact Hw].
    - exists b. apply (plug_hord k (FCons e (c_value c1) cs rest)); [exact B3 | exact Hb].
    - intros i ci Hci Hi. destruct (N.eq_dec i e) as [->|N]; [rewrite G5 in Hci; injection Hci as <-; reflexivity|]. rewrite Fr in Hci by exact N. assert (X : ~ In i (ids (plug k (FCons e (c_value c1) cs rest)))) by (intros X; apply (Permutation_in _ PI) in X; destruct X as [X|X]; [congruence | contradiction]).
      rewrite (O3 i X) in Hci. exact (Hu i ci Hci X). }
  assert (Oout : forall j, ~ In j (ids (plug k (FCons e (c_value c1) cs rest))) -> ~ In j (e :: ids rest ++ idsc k) /\ ~ In j (ids cs) /\ j <> e).
  { intros j Hj. assert (X : ~ In j (ids (FCons e (c_value c1) cs rest) ++ idsc k)) by (intros X; apply Hj; exact (Permutation_in _ (Permutation_sym Pi) X)). cbn [ids app In] in X. rewrite !in_app_iff in X. cbn [In]. rewrite in_app_iff. split; [tauto|]. split; [tauto|]. intros ->. tauto. }
  pose proof (pairs_ok right (length (h_mem h1)) h1 _ _ cs Hwid Hcs1 Dc) as Hpairs. destruct cs as [|p0 w0 cs0 rest0].
  - rewrite Hpairs. cbn [bind fst snd]. apply (Fin h1 hd rest); [exact K1 | exact R1 | apply Permutation_refl | lia | intros lo (_ & _ & X); exact X | exact Hc1|]. intros j Hj. apply O1. apply (Oout j Hj).
  - destruct Hpairs as (h2 & m & E2 & (vm & csm & Sm & (O2a & O2b & O2) & Pm & Bm)). rewrite E2. cbn [bind fst snd]. set (cs := FCons p0 w0 cs0 rest0) in *. clearbody cs.
    assert (Dd' : forall j, In j (ids cs) -> ~ In j (ids rest) /\ ~ In j (idsc k)) by (intros j Hj; specialize (Dd j Hj); rewrite in_app_iff in Dd; tauto).
    assert (K2 : repc h2 k l hd) by (apply (repc_frame k h1); [exact O2a | intros j Hj; apply O2; intros X; exact (proj2 (Dd' j X) Hj) | exact K1]).
    assert (R2 : rep h2 l hd rest) by (apply (rep_frame rest h1); [intros j Hj; apply O2; intros X; exact (proj1 (Dd' j X) Hj) | exact R1]).
    assert (Pmi : Permutation (m :: ids csm) (ids cs)) by (apply perm_ids in Pm; cbn [ids] in Pm; rewrite app_nil_r in Pm; exact Pm).
    assert (Hd4 : NoDup (ids (FCons m vm csm rest) ++ idsc k)).
    { cbn [ids]. apply (Permutation_NoDup (l := ids cs ++ (ids rest ++ idsc k))); [|apply NoDup_app_iff; split; [exact Dc|]; split; [exact Drk | exact Dd]]. rewrite app_assoc. apply Permutation_app_tail. change (m :: ids csm ++ ids rest) with ((m :: ids csm) ++ ids rest). apply Permutation_app_tail. apply Permutation_sym. exact Pmi. }
    destruct (link_ok k h2 l hd m vm csm rest K2 R2 Sm Hd4) as (h3 & E3 & K3 & R3 & L3 & O3). rewrite E3. cbn [bind].
    assert (Hme : m <> e). { intros ->. apply Hne. left. left. apply (Permutation_in _ Pmi). left. reflexivity. }
    apply (Fin h3 (Some m) (FCons m vm csm rest)); [exact K3 | exact R3 | | cbn [width]; lia | | |].
    + assert (X : elems (FCons m vm csm rest) = elems (FCons m vm csm FNil) ++ elems rest) by (cbn [elems]; rewrite app_nil_r; reflexivity). rewrite X. apply Permutation_app_tail. exact Pm.
    + intros lo. cbn [hord]. intros (A & B & C). specialize (Bm (c_value c1) B). cbn [hord] in Bm. destruct Bm as (Bm1 & Bm2 & _). split; [lia|]. split; [exact Bm2 | exact C].
    + rewrite O3, O2; [exact Hc1 | tauto |]. cbn [In]. rewrite in_app_iff. intros [X|X]; [congruence | tauto].
    + intros j Hj. destruct (Oout j Hj) as (A & B & C). rewrite O3, O2; [exact (O1 j A) | exact B |]. cbn [In] in *. intros [X|X]; [|tauto]. subst j. apply B. apply (Permutation_in _ Pmi). left. reflexivity.
Qed.

Lemma unlinked_cell : forall h F e v, Inv h F -> abs h e = Some (false, v) -> getc h e = Some (mk_cell None None None v) /\ ~ In e (ids F).
Proof.
  intros h F e v HI Ha. pose proof HI as (Hr & _ & _ & _ & Hu). unfold abs in Ha. destruct (getc h e) as [c|] eqn:Hc; [|discriminate]. injection Ha as Hp Hv.
  assert (Hn : ~ In e (ids F)). { intros X. destruct (rep_alloc _ _ _ _ _ Hr X) as (c' & Hc' & Hp'). rewrite Hc in Hc'. injection Hc' as <-. destruct (c_pprev c); [discriminate | contradiction]. }
  split; [|exact Hn]. rewrite (Hu e c Hc Hn), Hv. reflexivity.
Qed.

Lemma insert_ok : forall h F e v, Inv h F -> abs h e = Some (false, v) -> exists h' F', pqueue_insert h e = Ok h' /\ Inv h' F' /\ Permutation (elems F') ((e, v) :: elems F) /\ (forall j, ~ In j (e :: ids F) -> getc h' j = getc h j).
Proof.
  intros h F e v HI Ha. destruct (unlinked_cell h F e v HI Ha) as [Hc Hn]. destruct HI as (Hr & Hd & Hw & (b & Hb) & Hu). unfold pqueue_insert. rewrite (read_get _ _ _ Hc). cbn [bind c_pprev c_next c_children is_some orb].
  assert (M : exists h1 i w cs, pqueue_merge h (Some e) (h_root h) = Ok (h1, i) /\ single h1 i w cs /\ same_outside h h1 (e :: ids F) /\ Permutation (elems (FCons i w cs FNil)) ((e, v) :: elems F) /\ (forall lo, (lo <= v)%Z -> hord lo F -> hord lo (FCons i w cs FNil))).
  { assert (Se : single h e v FNil) by (eexists; split; [exact Hc|]; repeat split; reflexivity). destruct F as [|r vr csr rest].
    - cbn [rep] in Hr. rewrite Hr. rewrite (merge_none h e v FNil Se). exists h, e, v, FNil. split; [reflexivity|]. split; [exact Se|]. split; [apply outside_refl|]. split; [apply Permutation_refl|]. intros lo Hlo _. cbn [hord]. auto.
    - destruct rest as [|? ? ? ?]; [|cbn [width] in Hw; lia]. cbn [rep] in Hr. destruct Hr as (Er & c & Hcr & Hpr & Hvr & Hcs & Hnx). rewrite Er. cbn [ids] in Hn, Hd. rewrite app_nil_r in Hn, Hd.
      assert (Sr : single h r vr csr) by (exists c; repeat split; assumption). destruct (merge_two h e v FNil r vr csr Se Sr) as (h1 & i & w & cs & E & Hs & Ho & Hp & Hh & _); [cbn [ids app]; constructor; assumption|].
      exists h1, i, w, cs. split; [exact E|]. split; [exact Hs|]. cbn [ids app] in *. rewrite app_nil_r. split; [exact Ho|]. split; [exact Hp|]. intros lo Hlo Hh'. apply Hh. cbn [hord] in *. tauto. }
  destruct M as (h1 & i & w & cs & E & (c & Hci & Hni & Hvi & Hcs) & (O1 & O2 & O3) & Hp & Hh). rewrite E. cbn [bind fst snd]. set (h2 := mk_heap (h_mem h1) (Some i)).
  assert (G2 : forall j, getc h2 j = getc h1 j) by reflexivity. destruct (set_pprev_ok h2 i c (Some LRoot) Hci) as (h3 & E3 & (P1 & P2 & P3) & G3). rewrite E3. exists h3, (FCons i w cs FNil). split; [reflexivity|].
  assert (Hpi : Permutation (i :: ids cs) (e :: ids F)) by (apply (Permutation_map fst) in Hp; cbn [map fst elems] in Hp; rewrite app_nil_r in Hp; rewrite !ids_elems; exact Hp).
  assert (Hnd : NoDup (i :: ids cs)) by (apply (Permutation_NoDup (Permutation_sym Hpi)); constructor; assumption). inversion Hnd as [|? ? Hi Hdc]; subst.
  assert (Fr : forall j, ~ In j (e :: ids F) -> getc h3 j = getc h j). { intros j Hj. rewrite P3 by (intros [X|[]]; subst; apply Hj; apply (Permutation_in _ Hpi); left; reflexivity). rewrite G2. exact (O3 j Hj). }
  split; [|split; [exact Hp | exact Fr]]. split; [|split; [|split; [|split]]].
  - rewrite P1. cbn [h2 h_root rep]. split; [reflexivity|]. eexists. split; [exact G3|]. cbn [c_pprev c_value c_children c_next]. split; [reflexivity|]. split; [reflexivity|]. split; [|exact Hni]. apply (rep_frame cs h1); [|exact Hcs]. intros j Hj. rewrite P3 by (intros [X|[]]; subst; contradiction). apply G2.
  - cbn [ids]. rewrite app_nil_r. exact Hnd.
  - cbn [width]. lia.
  - exists (Z.min b v). apply Hh; [lia|]. apply (hord_le F b); [lia | exact Hb].
  - intros j cj Hj Hn'. cbn [ids] in Hn'. rewrite app_nil_r in Hn'. assert (X : ~ In j (e :: ids F)) by (intros X; apply Hn'; exact (Permutation_in _ (Permutation_sym Hpi) X)). rewrite (Fr j X) in Hj. apply (Hu j cj Hj). intros Y. apply X. right. exact Y.
Qed.

(** ** Operations *)
Definition R (h : heap) (z : tasks) : Prop := (exists F, Inv h F) /\ forall i, z i = abs h i.

Lemma abs_out : forall h F h' F' j, Inv h F -> Inv h' F' -> (forall v, In (j, v) (elems F) <-> In (j, v) (elems F')) -> (~ In j (ids F) -> getc h' j = getc h j) -> abs h' j = abs h j.
Proof.
  intros h F h' F' j HI HI' He Ho. destruct (in_dec N.eq_dec j (ids F)) as [X|X].
  - rewrite ids_elems in X. apply in_map_iff in X. destruct X as ([i v] & E & X). cbn [fst] in E. subst i. rewrite (abs_in h F j v HI X). apply (abs_in h' F' j v HI'). apply He. exact X.
  - unfold abs. rewrite (Ho X). reflexivity.
Qed.
Lemma remove_R : forall right h z e b v, R h z -> z e = Some (b, v) -> exists h', pqueue_remove right h e = Ok h' /\ R h' (upd z e (Some (false, v))) /\ getc h' e = Some (mk_cell None None None v).
Proof.
  intros right h z e b v [[F HI] Hz] Hb. rewrite Hz in Hb. destruct b.
  - pose proof (abs_true h F e v HI Hb) as Hin. destruct (remove_ok right h F e v HI Hin) as (h' & F' & E & HI' & Hp & G & O). exists h'. split; [exact E|]. split; [|exact G]. split; [exists F'; exact HI'|].
    assert (Hd : NoDup (e :: ids F')). { pose proof HI as (_ & Hd & _). rewrite ids_elems in *. apply (Permutation_map fst) in Hp. exact (Permutation_NoDup Hp Hd). } inversion Hd as [|? ? Hne _]; subst.
    intros j. unfold upd. destruct (N.eq_dec j e) as [->|N]; [unfold abs; rewrite G; reflexivity|]. rewrite Hz. symmetry. apply (abs_out h F h' F' j HI HI'); [|exact (O j)]. intros w. split; intros X.
    + apply (Permutation_in _ Hp) in X. destruct X as [X|X]; [congruence | exact X].
    + apply (Permutation_in _ (Permutation_sym Hp)). right. exact X.
  - destruct (unlinked_cell h F e v HI Hb) as [Hc Hn]. unfold pqueue_remove. rewrite (read_get _ _ _ Hc). cbn [bind c_pprev c_children c_next is_some orb]. exists h. split; [reflexivity|]. split; [|exact Hc]. split; [exists F; exact HI|].
    intros j. unfold upd. destruct (N.eq_dec j e) as [->|N]; [symmetry; exact Hb | apply Hz].
Qed.
Lemma set_value_R : forall h z e v t, R h z -> z e = Some (false, v) -> exists h', set_value h e t = Ok h' /\ R h' (upd z e (Some (false, t))).
Proof.
  intros h z e v t [[F HI] Hz] Hb. rewrite Hz in Hb. destruct (unlinked_cell h F e v HI Hb) as [Hc Hn]. destruct (set_value_ok h e _ t Hc) as (h' & E & (O1 & O2 & O3) & G). exists h'. split; [exact E|].
  assert (Fr : forall j, j <> e -> getc h' j = getc h j) by (intros j Hj; apply O3; intros [X|[]]; congruence). destruct HI as (Hr & Hd & Hw & Hb' & Hu). split.
  - exists F. split; [|split; [exact Hd|split; [exact Hw|split; [exact Hb'|]]]].
    + rewrite O1. apply (rep_frame F h); [|exact Hr]. intros j Hj. apply Fr. intros ->. contradiction.
    + intros j c Hj Hnj. destruct (N.eq_dec j e) as [->|N]; [rewrite G in Hj; injection Hj as <-; reflexivity|]. rewrite Fr in Hj by exact N. exact (Hu j c Hj Hnj).
  - intros j. unfold upd. destruct (N.eq_dec j e) as [->|N]; [unfold abs; rewrite G; reflexivity|]. rewrite Hz. unfold abs. rewrite Fr by exact N. reflexivity.
Qed.
Lemma insert_R : forall h z e v, R h z -> z e = Some (false, v) -> exists h', pqueue_insert h e = Ok h' /\ R h' (upd z e (Some (true, v))).
Proof.
  intros h z e v [[F HI] Hz] Hb. rewrite Hz in Hb. destruct (insert_ok h F e v HI Hb) as (h' & F' & E & HI' & Hp & O). exists h'. split; [exact E|]. split; [exists F'; exact HI'|].
  intros j. unfold upd. destruct (N.eq_dec j e) as [->|N].
  - symmetry. apply (abs_in h' F' e v HI'). apply (Permutation_in _ (Permutation_sym Hp)). left. reflexivity.
  - rewrite Hz. symmetry. apply (abs_out h F h' F' j HI HI').
    + intros w. split; intros X; [apply (Permutation_in _ (Permutation_sym Hp)); right; exact X|]. apply (Permutation_in _ Hp) in X. destruct X as [X|X]; [congruence | exact X].
    + intros X. apply O. intros [Y|Y]; [congruence | contradiction].
Qed.
Lemma R_ext : forall h z z', R h z -> (forall i, z' i = z i) -> R h z'.
Proof. intros h z z' [HI Hz] H. split; [exact HI|]. intros i. rewrite H. apply Hz. Qed.
Lemma reschedule_R : forall h z e v t, R h z -> z e = Some (false, v) -> exists h', task_reschedule h e t = Ok h' /\ R h' (upd z e (Some (true, t))).
Proof.
  intros h z e v t HR Hb. unfold task_reschedule. destruct (set_value_R h z e v t HR Hb) as (h1 & E1 & R1). rewrite E1. cbn [bind]. destruct (insert_R h1 _ e t R1) as (h2 & E2 & R2); [unfold upd; destruct (N.eq_dec e e); congruence|].
  exists h2. split; [exact E2|]. apply (R_ext h2 _ _ R2). intros i. unfold upd. destruct (N.eq_dec i e); reflexivity.
Qed.
Lemma R_cell : forall h z e, R h z -> match z e with Some (b, v) => exists c, getc h e = Some c /\ is_some (c_pprev c) = b /\ c_value c = v | None => getc h e = None end.
Proof. intros h z e [_ Hz]. rewrite Hz. unfold abs. destruct (getc h e) as [c|]; [exists c; repeat split | reflexivity]. Qed.
Lemma reschedule_bug : forall h z e v t, R h z -> z e = Some (true, v) -> task_reschedule h e t = Bug.
Proof.
  intros h z e v t HR Hb. pose proof (R_cell h z e HR) as C. rewrite Hb in C. destruct C as (c & Hc & Hp & _). unfold task_reschedule, set_value. rewrite (read_get _ _ _ Hc). cbn [bind]. unfold pqueue_insert. rewrite (read_get _ e _ (getc_same _ _ _ _ Hc)). cbn [bind c_pprev c_next c_children]. rewrite Hp. reflexivity.
Qed.

Definition outcome (r : res heap) (q : res tasks) : Prop :=
  match q with
  | Ok z => exists h, r = Ok h /\ R h z
  | Bug => r = Bug
  | Fatal => r = Fatal
  | UB => r = UB
  end.
Lemma op_R : forall right o h z, R h z -> outcome (task_op_run right o h) (spec_op o z).
Proof.
  intros right o h z HR. destruct o as [i|i t|i d|i|i t|i]; cbn [task_op_run spec_op]; pose proof (R_cell h z i HR) as C; destruct (z i) as [[b v]|] eqn:Ez.
  - destruct C as (c & Hc & _). rewrite Hc. reflexivity.
  - rewrite C. cbn [outcome]. eexists. split; [reflexivity|]. destruct HR as [[F HI] Hz]. pose proof HI as (Hr & Hd & Hw & Hb & Hu).
    assert (Hn : ~ In i (ids F)) by (intros X; destruct (rep_alloc _ _ _ _ _ Hr X) as (c & Hc & _); congruence).
    assert (G : forall j, getc (mk_heap ((i, mk_cell None None None 0) :: h_mem h) (h_root h)) j = if N.eqb i j then Some (mk_cell None None None 0) else getc h j) by (intros j; unfold getc; cbn [h_mem find fst]; destruct (N.eqb i j); reflexivity).
    split.
    + exists F. split; [|split; [exact Hd|split; [exact Hw|split; [exact Hb|]]]].
      * cbn [h_root]. apply (rep_frame F h); [|exact Hr]. intros j Hj. rewrite G. destruct (N.eqb_spec i j); [subst; contradiction | reflexivity].
      * intros j c. rewrite G. destruct (N.eqb_spec i j); [intros E _; injection E as <-; reflexivity | apply Hu].
    + intros j. unfold upd, abs. rewrite G. destruct (N.eq_dec j i), (N.eqb_spec i j); try congruence; [reflexivity | apply Hz].
  - destruct b; cbn [outcome]; [exact (reschedule_bug h z i v t HR Ez) | exact (reschedule_R h z i v t HR Ez)].
  - cbn [outcome]. unfold task_reschedule, set_value, read. rewrite C. reflexivity.
  - destruct C as (c & Hc & _ & Hv). rewrite (read_get _ _ _ Hc). cbn [bind]. rewrite Hv. destruct b; cbn [outcome]; [exact (reschedule_bug h z i v _ HR Ez) | exact (reschedule_R h z i v _ HR Ez)].
  - cbn [outcome]. unfold read. rewrite C. reflexivity.
  - cbn [outcome]. destruct (remove_R right h z i b v HR Ez) as (h' & E & H & _). exists h'. split; assumption.
  - cbn [outcome]. unfold pqueue_remove, read. rewrite C. reflexivity.
  - destruct (Z.eqb t TIMEOUT_INV); cbn [outcome]; [destruct (remove_R right h z i b v HR Ez) as (h' & E & H & _); exists h'; split; assumption|].
    destruct C as (c & Hc & Hp & Hv). unfold task_timeout. rewrite (read_get _ _ _ Hc). cbn [bind]. rewrite Hp, Hv. destruct (Z.ltb t (if b then v else TIMEOUT_INV)); cbn [outcome]; [|exists h; split; [reflexivity | exact HR]].
    destruct (remove_R right h z i b v HR Ez) as (h1 & E1 & R1 & _). rewrite E1. cbn [bind]. destruct (reschedule_R h1 _ i v t R1) as (h2 & E2 & R2); [unfold upd; destruct (N.eq_dec i i); congruence|]. exists h2. split; [exact E2|].
    apply (R_ext _ _ _ R2). intros j. unfold upd. destruct (N.eq_dec j i); reflexivity.
  - cbn [outcome]. destruct (Z.eqb t TIMEOUT_INV); [unfold pqueue_remove, read; rewrite C; reflexivity | unfold task_timeout, read; rewrite C; reflexivity].
  - destruct (remove_R right h z i b v HR Ez) as (h1 & E1 & R1 & G1). rewrite E1. cbn [bind outcome]. eexists. split; [reflexivity|]. destruct R1 as [[F HI] Hz]. pose proof HI as (Hr & Hd & Hw & Hb & Hu).
    assert (Hn : ~ In i (ids F)) by (intros X; destruct (rep_alloc _ _ _ _ _ Hr X) as (c' & Hc' & Hp'); rewrite G1 in Hc'; injection Hc' as <-; contradiction).
    assert (G : forall j, getc (mk_heap (filter (fun x => negb (N.eqb (fst x) i)) (h_mem h1)) (h_root h1)) j = if N.eqb j i then None else getc h1 j).
    { intros j. unfold getc. cbn [h_mem]. clear. induction (h_mem h1) as [|[k d] m IH]; cbn [filter find fst]; [destruct (N.eqb j i); reflexivity|]. destruct (N.eqb_spec k i) as [->|Nk]; cbn [negb].
      - rewrite IH. destruct (N.eqb_spec j i) as [->|]; [reflexivity|]. destruct (N.eqb_spec i j); [congruence | reflexivity].
      - cbn [find fst]. destruct (N.eqb_spec k j) as [->|]; [destruct (N.eqb_spec j i); [contradiction | reflexivity] | exact IH]. }
    split.
    + exists F. split; [|split; [exact Hd|split; [exact Hw|split; [exact Hb|]]]].
      * cbn [h_root]. apply (rep_frame F h1); [|exact Hr]. intros j Hj. rewrite G. destruct (N.eqb_spec j i); [subst; contradiction | reflexivity].
      * intros j c'. rewrite G. destruct (N.eqb j i); [discriminate | apply Hu].
    + intros j. unfold abs. rewrite G. specialize (Hz j). unfold upd in *. destruct (N.eq_dec j i), (N.eqb_spec j i); try congruence. exact Hz.
  - cbn [outcome]. unfold pqueue_remove, read. rewrite C. reflexivity.
Qed.
Lemma ops_R : forall right l h z, R h z -> outcome (task_ops_run right l h) (spec_ops l z).
Proof.
  intros right l. induction l as [|o l IH]; intros h z HR; cbn [task_ops_run spec_ops]; [exists h; split; [reflexivity | exact HR]|].
  pose proof (op_R right o h z HR) as H. destruct (spec_op o z) as [z'| | |] eqn:E; cbn [outcome bind] in *; [destruct H as (h' & -> & HR'); cbn [bind]; exact (IH h' z' HR') | rewrite H; reflexivity | rewrite H; reflexivity | rewrite H; reflexivity].
Qed.
Lemma init_R : R heap_init no_tasks.
Proof. split; [|reflexivity]. exists FNil. split; [reflexivity|]. split; [constructor|]. split; [cbn [width]; lia|]. split; [exists 0%Z; exact I|]. intros i c H. discriminate H. Qed.

(** ** The root *)
Lemma root_R : forall h z, R h z -> match h_root h with
  | None => forall i t, z i <> Some (true, t)
  | Some i => exists c, getc h i = Some c /\ z i = Some (true, c_value c) /\ least z (c_value c)
  end.
Proof.
  intros h z [[F HI] Hz]. pose proof HI as (Hr & _ & Hw & (b & Hb) & _). destruct F as [|r v cs rest].
  - cbn [rep] in Hr. rewrite Hr. intros i t E. rewrite Hz in E. apply (abs_true h _ i t HI) in E. contradiction.
  - destruct rest as [|? ? ? ?]; [|cbn [width] in Hw; lia]. pose proof Hr as Hr0. cbn [rep] in Hr. destruct Hr as (Er & c & Hc & Hp & Hv & _). rewrite Er. exists c. split; [exact Hc|]. rewrite Hv. split.
    + rewrite Hz. apply (abs_in h _ r v HI). left. reflexivity.
    + intros j u Hj. rewrite Hz in Hj. apply (abs_true h _ j u HI) in Hj. cbn [hord elems In] in *. rewrite app_nil_r in Hj. destruct Hj as [E|Hj]; [injection E as -> ->; lia|]. destruct Hb as (_ & Hb & _). exact (hord_elems cs v j u Hb Hj).
Qed.
Lemma observed_R : forall h z, R h z -> observed h z.
Proof.
  intros h z HR. split; [|split].
  - intros i b v Hi. pose proof (R_cell h z i HR) as C. rewrite Hi in C. destruct C as (c & Hc & Hp & Hv). unfold task_scheduled, task_timeout. rewrite (read_get _ _ _ Hc). cbn [bind]. rewrite Hp, Hv. split; reflexivity.
  - intros i Hi. pose proof (R_cell h z i HR) as C. rewrite Hi in C. exact C.
  - pose proof (root_R h z HR) as Hroot. unfold task_queue_timeout. destruct (h_root h) as [i|]; [|right; split; [exact Hroot | reflexivity]]. destruct Hroot as (c & Hc & Hi & Hl). left. exists i, (c_value c). split; [exact Hi|]. split; [exact Hl|]. rewrite (read_get _ _ _ Hc). reflexivity.
Qed.
Lemma rep_points : forall f h l hd, rep h l hd f -> points_back h l hd.
Proof. intros f h l hd Hr. destruct f as [|i v cs rest]; cbn [rep] in Hr; [subst hd; exact I|]. destruct Hr as (-> & c & Hc & Hp & _). exists c. split; assumption. Qed.
Lemma links_R : forall h z, R h z -> links_ok h.
Proof.
  intros h z [[F HI] _]. pose proof HI as (Hr & _ & _ & _ & Hu). split; [exact (rep_points F h _ _ Hr)|]. intros i c Hc. destruct (in_dec N.eq_dec i (ids F)) as [X|X].
  - destruct (unplug F CTop h LRoot (h_root h) i (conj eq_refl eq_refl) Hr X) as (k & v & cs & rest & l & EF & Hk & Hf). cbn [rep] in Hf. destruct Hf as (_ & c' & Hc' & Hp & Hv & Hcs & Hrest). rewrite Hc in Hc'. injection Hc' as <-.
    split; [exact (rep_points _ _ _ _ Hrest)|]. split; [exact (rep_points _ _ _ _ Hcs)|]. rewrite Hp. exact (load_repc k h l (Some i) Hk).
  - rewrite (Hu i c Hc X). cbn [c_next c_children c_pprev points_back]. split; [exact I|]. split; [exact I|]. split; reflexivity.
Qed.

(** ** Running tasks *)
Definition handled (r : res (option (heap * list (N * Z)))) (q : res (option (list (N * Z) * tasks))) : Prop :=
  match q with
  | Ok (Some (log, z)) => exists h, r = Ok (Some (h, log)) /\ R h z
  | Ok None => r = Ok None
  | Bug => r = Bug
  | Fatal => r = Fatal
  | UB => r = UB
  end.
Lemma handle_R : forall right fuel now handler n h z, R h z -> exists q, handled (task_handle right fuel now handler n h) q /\ spec_handle fuel now handler n z q.
Proof.
  intros right fuel now handler. induction fuel as [|fuel IH]; intros n h z HR; cbn [task_handle]; pose proof (root_R h z HR) as Hroot; destruct (h_root h) as [i|].
  - destruct Hroot as (c & Hc & Hi & Hl). rewrite (read_get _ _ _ Hc). cbn [bind]. unfold timed_out. destruct (Z.leb_spec (c_value c) now) as [X|X]; cbn [negb].
    + exists (Ok None). split; [reflexivity|]. exists [], z, i, (c_value c). split; [constructor|]. split; [reflexivity|]. split; assumption.
    + exists (Ok (Some ([], z))). split; [exists h; split; [reflexivity | exact HR]|]. split; [constructor|]. intros j t [Hj Ht]. specialize (Hl j t Hj). lia.
  - exists (Ok (Some ([], z))). split; [exists h; split; [reflexivity | exact HR]|]. split; [constructor|]. intros j t [Hj _]. exact (Hroot j t Hj).
  - destruct Hroot as (c & Hc & Hi & Hl). rewrite (read_get _ _ _ Hc). cbn [bind]. unfold timed_out. destruct (Z.leb_spec (c_value c) now) as [X|X]; cbn [negb].
    + destruct (remove_R right h z i true (c_value c) HR Hi) as (h1 & E1 & R1 & _). rewrite E1. cbn [bind]. pose proof (ops_R right (handler n i) h1 _ R1) as Ho.
      assert (Hdue : due now z i (c_value c)) by (split; assumption).
      destruct (spec_ops (handler n i) (upd z i (Some (false, c_value c)))) as [z1| | |] eqn:Es; cbn [outcome] in Ho.
      * destruct Ho as (h2 & E2 & R2). rewrite E2. cbn [bind]. destruct (IH (S n) h2 z1 R2) as (q & Hq & Hs). destruct q as [[[log z']|]| | |]; cbn [handled spec_handle] in Hq, Hs.
        -- destruct Hq as (h3 & E3 & R3). rewrite E3. cbn [bind]. exists (Ok (Some ((i, c_value c) :: log, z'))). split; [exists h3; split; [reflexivity | exact R3]|]. destruct Hs as [Hs1 Hs2]. split; [|exact Hs2]. exact (spec_run_task now handler n z i (c_value c) z1 log z' Hdue Hl Es Hs1).
        -- rewrite Hq. cbn [bind]. exists (Ok None). split; [reflexivity|]. destruct Hs as (log & z' & j & t & Hs1 & Hs2 & Hs3). exists ((i, c_value c) :: log), z', j, t. split; [exact (spec_run_task now handler n z i (c_value c) z1 log z' Hdue Hl Es Hs1)|]. split; [cbn [length]; lia | exact Hs3].
        -- rewrite Hq. cbn [bind]. exists Bug. split; [reflexivity|]. destruct Hs as (log & z' & j & t & Hs1 & Hs2 & Hs3 & Hs4). exists ((i, c_value c) :: log), z', j, t. split; [exact (spec_run_task now handler n z i (c_value c) z1 log z' Hdue Hl Es Hs1)|]. split; [exact Hs2|]. split; [exact Hs3|]. cbn [length]. rewrite Nat.add_succ_r. exact Hs4.
        -- destruct Hs as (log & z' & j & t & Hs1 & Hs2 & Hs3 & Hs4). destruct (spec_ops (handler (S n + length log) j) (upd z' j (Some (false, t)))); contradiction.
        -- rewrite Hq. cbn [bind]. exists UB. split; [reflexivity|]. destruct Hs as (log & z' & j & t & Hs1 & Hs2 & Hs3 & Hs4). exists ((i, c_value c) :: log), z', j, t. split; [exact (spec_run_task now handler n z i (c_value c) z1 log z' Hdue Hl Es Hs1)|]. split; [exact Hs2|]. split; [exact Hs3|]. cbn [length]. rewrite Nat.add_succ_r. exact Hs4.
      * rewrite Ho. cbn [bind]. exists Bug. split; [reflexivity|]. exists [], z, i, (c_value c). split; [constructor|]. split; [exact Hdue|]. split; [exact Hl|]. cbn [length]. rewrite Nat.add_0_r, Es. exact I.
      * exfalso. clear - Es. assert (G : forall l z, spec_ops l z <> Fatal). { intros l. induction l as [|o l IHl]; intros y; cbn [spec_ops]; [discriminate|]. assert (X : spec_op o y <> Fatal). { destruct o; cbn [spec_op]; destruct (y i0) as [[[|] ?]|]; try discriminate; repeat match goal with |- (if ?b then _ else _) <> _ => destruct b end; discriminate. }
          destruct (spec_op o y); cbn [bind]; [apply IHl | discriminate | contradiction | discriminate]. }
        exact (G _ _ Es).
      * rewrite Ho. cbn [bind]. exists UB. split; [reflexivity|]. exists [], z, i, (c_value c). split; [constructor|]. split; [exact Hdue|]. split; [exact Hl|]. cbn [length]. rewrite Nat.add_0_r, Es. exact I.
    + exists (Ok (Some ([], z))). split; [exists h; split; [reflexivity | exact HR]|]. split; [constructor|]. intros j t [Hj Ht]. specialize (Hl j t Hj). lia.
  - exists (Ok (Some ([], z))). split; [exists h; split; [reflexivity | exact HR]|]. split; [constructor|]. intros j t [Hj _]. exact (Hroot j t Hj).
Qed.

(** ** Consequences *)
Lemma future_op_due : forall now o z z', future now o -> spec_op o z = Ok z' -> forall i t, z' i = Some (true, t) -> (t <= now)%Z -> z i = Some (true, t).
Proof.
  intros now o z z' Hf E i t Hi Ht. destruct o as [k|k u|k d|k|k u|k]; cbn [spec_op future] in *; destruct (z k) as [[b v]|] eqn:Ek; try discriminate E; try contradiction.
  - injection E as <-. unfold upd in Hi. destruct (N.eq_dec i k); [discriminate Hi | exact Hi].
  - destruct b; [discriminate E|]. injection E as <-. unfold upd in Hi. destruct (N.eq_dec i k); [injection Hi as ->; lia | exact Hi].
  - injection E as <-. unfold upd in Hi. destruct (N.eq_dec i k); [discriminate Hi | exact Hi].
  - destruct (Z.eqb u TIMEOUT_INV); [injection E as <-; unfold upd in Hi; destruct (N.eq_dec i k); [discriminate Hi | exact Hi]|].
    destruct (Z.ltb u (if b then v else TIMEOUT_INV)); [|injection E as <-; exact Hi]. injection E as <-. unfold upd in Hi. destruct (N.eq_dec i k); [injection Hi as ->; lia | exact Hi].
  - injection E as <-. unfold upd in Hi. destruct (N.eq_dec i k); [discriminate Hi | exact Hi].
Qed.
Lemma future_ops_due : forall now l z z', Forall (future now) l -> spec_ops l z = Ok z' -> forall i t, z' i = Some (true, t) -> (t <= now)%Z -> z i = Some (true, t).
Proof.
  intros now l. induction l as [|o l IH]; intros z z' Hf E i t Hi Ht; cbn [spec_ops] in E; [injection E as <-; exact Hi|]. inversion Hf as [|? ? Ho Hl]; subst. destruct (spec_op o z) as [z1| | |] eqn:E1; try discriminate E. cbn [bind] in E.
  apply (future_op_due now o z z1 Ho E1 i t); [|exact Ht]. exact (IH z1 z' Hl E i t Hi Ht).
Qed.
Lemma other_op : forall o z z' i, spec_op o z = Ok z' -> op_task o <> i -> z' i = z i.
Proof.
  intros o z z' i E Hn. destruct o as [k|k u|k d|k|k u|k]; cbn [spec_op op_task] in *; destruct (z k) as [[b v]|] eqn:Ek; try discriminate E;
    repeat match type of E with (if ?c then _ else _) = _ => destruct c end; try discriminate E; injection E as <-; try reflexivity; unfold upd; destruct (N.eq_dec i k); congruence.
Qed.
Lemma other_ops : forall l z z' i, spec_ops l z = Ok z' -> Forall (fun o => op_task o <> i) l -> z' i = z i.
Proof.
  intros l. induction l as [|o l IH]; intros z z' i E H; cbn [spec_ops] in E; [injection E as <-; reflexivity|]. inversion H as [|? ? Ho Hl]; subst. destruct (spec_op o z) as [z1| | |] eqn:E1; try discriminate E. cbn [bind] in E.
  rewrite (IH z1 z' i E Hl). exact (other_op o z z1 i E1 Ho).
Qed.
Lemma run_due : forall now handler n z log z', future_only now handler -> spec_run now handler n z log z' -> (forall i t, In (i, t) log -> due now z i t) /\ NoDup (map fst log).
Proof.
  intros now handler n z log z' Hf H. induction H as [n z|n z i t z1 log z' Hd Hl Eo Hr IH]; [split; [intros i t [] | constructor]|]. destruct IH as [IH1 IH2].
  assert (G : forall j u, In (j, u) log -> j <> i /\ due now z j u).
  { intros j u Hj. destruct (IH1 j u Hj) as [Hz Hu]. pose proof (future_ops_due now _ _ _ (Hf n i) Eo j u Hz Hu) as X. unfold upd in X. destruct (N.eq_dec j i); [discriminate X|]. split; [assumption | split; assumption]. }
  split.
  - intros j u [E|Hj]; [injection E as <- <-; exact Hd | exact (proj2 (G j u Hj))].
  - cbn [map fst]. constructor; [|exact IH2]. intros X. apply in_map_iff in X. destruct X as ([j u] & E & X). cbn [fst] in E. subst j. exact (proj1 (G i u X) eq_refl).
Qed.
Lemma run_complete : forall now handler n z log z' i t, spec_run now handler n z log z' -> (forall i t, ~ due now z' i t) -> (forall m j, Forall (fun o => op_task o <> i) (handler m j)) -> due now z i t -> In (i, t) log.
Proof.
  intros now handler n z log z' i t H. induction H as [n z|n z k u z1 log z' Hd Hl Eo Hr IH]; intros Hend Hno Hi; [exfalso; exact (Hend i t Hi)|].
  destruct (N.eq_dec i k) as [->|N]; [left; destruct Hi as [Hi _], Hd as [Hd _]; congruence|]. right. apply IH; [exact Hend | exact Hno|]. destruct Hi as [Hi Ht]. split; [|exact Ht]. rewrite (other_ops _ _ _ i Eo (Hno n k)). unfold upd. destruct (N.eq_dec i k); [contradiction | exact Hi].
Qed.
Definition above (b : Z) (z : tasks) : Prop := forall j u, z j = Some (true, u) -> (b <= u)%Z.
Lemma progress_above : forall now handler n i t z z1, progressing now handler -> due now z i t -> least z t -> spec_ops (handler n i) (upd z i (Some (false, t))) = Ok z1 -> above t z1.
Proof.
  intros now handler n i t z z1 Hp [Hi Ht] Hl E j u Hj. destruct (Hp n i) as [Hf|(d & Hd & Eh)].
  - destruct (Z_le_dec u now) as [X|X]; [|lia]. pose proof (future_ops_due now _ _ _ Hf E j u Hj X) as Y. unfold upd in Y. destruct (N.eq_dec j i); [discriminate Y | exact (Hl j u Y)].
  - rewrite Eh in E. cbn [spec_ops spec_op] in E. unfold upd in E at 1. destruct (N.eq_dec i i) as [_|X]; [|contradiction]. cbn [bind] in E. injection E as <-. unfold upd in Hj. destruct (N.eq_dec j i); [injection Hj as <-; lia | exact (Hl j u Hj)].
Qed.
Lemma run_above : forall now handler n z log z' b, progressing now handler -> spec_run now handler n z log z' -> above b z -> Forall (fun x => (b <= snd x)%Z) log.
Proof.
  intros now handler n z log z' b Hp H. revert b. induction H as [n z|n z i t z1 log z' Hd Hl Eo Hr IH]; intros b Hb; constructor; [cbn [snd]; destruct Hd as [Hd _]; exact (Hb i t Hd)|].
  apply IH. pose proof (progress_above now handler n i t z z1 Hp Hd Hl Eo) as X. intros j u Hj. specialize (X j u Hj). destruct Hd as [Hd _]. specialize (Hb i t Hd). lia.
Qed.
Lemma run_sorted : forall now handler n z log z', progressing now handler -> spec_run now handler n z log z' -> StronglySorted (fun x y => (snd x <= snd y)%Z) log.
Proof.
  intros now handler n z log z' Hp H. induction H as [n z|n z i t z1 log z' Hd Hl Eo Hr IH]; constructor; [exact IH|]. cbn [snd]. exact (run_above now handler (S n) z1 log z' t Hp Hr (progress_above now handler n i t z z1 Hp Hd Hl Eo)).
Qed.

(** Termination: how late the scheduled tasks are *)
Definition late (now : Z) (z : tasks) (i : N) : nat := match z i with Some (true, t) => Z.to_nat (now - t + 1) | _ => 0 end.
Definition total (now : Z) (z : tasks) (L : list N) : nat := fold_right (fun i n => late now z i + n) 0 L.
Lemma total_le : forall now z z' L, (forall i, late now z' i <= late now z i) -> total now z' L <= total now z L.
Proof. intros now z z' L H. induction L as [|i L IH]; [apply Nat.le_refl|]. cbn [total fold_right] in *. specialize (H i). unfold total in IH. lia. Qed.
Lemma total_lt : forall now z z' L i, (forall i, late now z' i <= late now z i) -> In i L -> late now z' i < late now z i -> total now z' L < total now z L.
Proof.
  intros now z z' L i H Hi Hlt. induction L as [|j L IH]; [contradiction|]. pose proof (total_le now z z' L H) as Hle. cbn [total fold_right] in *. unfold total in *. specialize (H j). destruct Hi as [->|Hi]; [lia | specialize (IH Hi); lia].
Qed.
Lemma late_future : forall now l z z', Forall (future now) l -> spec_ops l z = Ok z' -> forall i, late now z' i <= late now z i.
Proof.
  intros now l z z' Hf E i. unfold late. destruct (z' i) as [[[|] t]|] eqn:Ei; try lia. destruct (Z_le_dec t now) as [X|X]; [rewrite (future_ops_due now l z z' Hf E i t Ei X); lia|]. lia.
Qed.
Lemma run_length : forall now handler n z log z' L, progressing now handler -> spec_run now handler n z log z' -> (forall i t, due now z i t -> In i L) -> length log + total now z' L <= total now z L.
Proof.
  intros now handler n z log z' L Hp H. induction H as [n z|n z i t z1 log z' Hd Hl Eo Hr IH]; intros HL; [cbn [length]; lia|]. cbn [length].
  assert (Hle : (forall j, late now z1 j <= late now z j) /\ late now z1 i < late now z i).
  { pose proof Hd as [Hi Ht]. assert (Li : late now z i = Z.to_nat (now - t + 1)) by (unfold late; rewrite Hi; reflexivity). destruct (Hp n i) as [Hf|(d & Hdp & Eh)].
    - pose proof (late_future now _ _ _ Hf Eo) as X. assert (Y : forall j, late now (upd z i (Some (false, t))) j <= late now z j) by (intros j; unfold late, upd; destruct (N.eq_dec j i); lia).
      split; [intros j; specialize (X j); specialize (Y j); lia|]. specialize (X i). unfold late at 2 in X. unfold upd in X. destruct (N.eq_dec i i) as [_|C]; [lia | contradiction].
    - rewrite Eh in Eo. cbn [spec_ops spec_op] in Eo. unfold upd in Eo at 1. destruct (N.eq_dec i i) as [_|X]; [|contradiction]. cbn [bind] in Eo. injection Eo as <-.
      assert (L1 : late now (upd (upd z i (Some (false, t))) i (Some (true, (t + d)%Z))) i = Z.to_nat (now - (t + d) + 1)) by (unfold late, upd; destruct (N.eq_dec i i); [reflexivity | contradiction]).
      split; [|rewrite L1, Li; lia]. intros j. destruct (N.eq_dec j i) as [->|N]; [rewrite L1, Li; lia|]. unfold late, upd. destruct (N.eq_dec j i); [contradiction | lia]. }
  destruct Hle as [Hle Hlt]. assert (HiL : In i L) by exact (HL i t Hd). pose proof (total_lt now z z1 L i Hle HiL Hlt). assert (IHp : length log + total now z' L <= total now z1 L); [|lia]. apply IH. intros j u [Hj Hu].
  assert (X : 0 < late now z1 j) by (unfold late; rewrite Hj; lia). specialize (Hle j). unfold late in Hle at 2. destruct (z j) as [[[|] w]|] eqn:Ez; try lia. apply (HL j w). split; [exact Ez | lia].
Qed.
Lemma handle_terminates : forall right now handler n h z, R h z -> progressing now handler -> exists fuel0, forall fuel, fuel0 <= fuel -> task_handle right fuel now handler n h <> Ok None.
Proof.
  intros right now handler n h z HR Hp. pose proof HR as [[F HI] Hz]. exists (S (total now z (ids F))). intros fuel Hfuel E. destruct (handle_R right fuel now handler n h z HR) as (q & Hq & Hs). rewrite E in Hq.
  destruct q as [[[log z']|]| | |]; cbn [handled] in Hq; try discriminate Hq; [destruct Hq as (h' & X & _); discriminate X|]. cbn [spec_handle] in Hs. destruct Hs as (log & z' & i & t & Hrun & Hlen & _).
  assert (X : length log + total now z' (ids F) <= total now z (ids F)); [|lia]. apply (run_length now handler n z log z' (ids F) Hp Hrun). intros j u [Hj _]. rewrite Hz in Hj. apply (abs_true h F j u HI) in Hj. rewrite ids_elems. apply in_map_iff. exists (j, u). split; [reflexivity | exact Hj].
Qed.

(** ** The theorems *)
Lemma ops_exact : forall right l, match spec_ops l no_tasks with
  | Ok z => exists h, task_ops_run right l heap_init = Ok h /\ observed h z /\ links_ok h
  | Bug => task_ops_run right l heap_init = Bug
  | Fatal => False
  | UB => task_ops_run right l heap_init = UB
  end.
Proof.
  intros right l. pose proof (ops_R right l heap_init no_tasks init_R) as H. destruct (spec_ops l no_tasks) as [z| | |] eqn:E; cbn [outcome] in H; try exact H.
  - destruct H as (h & Eh & HR). exists h. split; [exact Eh|]. split; [exact (observed_R h z HR) | exact (links_R h z HR)].
  - clear H. assert (G : forall l z, spec_ops l z <> Fatal); [|exact (G _ _ E)]. clear. intros l. induction l as [|o l IHl]; intros y; cbn [spec_ops]; [discriminate|].
    assert (X : spec_op o y <> Fatal). { destruct o; cbn [spec_op]; destruct (y i) as [[[|] ?]|]; try discriminate; repeat match goal with |- (if ?b then _ else _) <> _ => destruct b end; discriminate. }
    destruct (spec_op o y); cbn [bind]; [apply IHl | discriminate | contradiction | discriminate].
Qed.
Lemma run_exact : forall right l h z fuel now handler, task_ops_run right l heap_init = Ok h -> spec_ops l no_tasks = Ok z ->
  match task_handle right fuel now handler 0 h with
  | Ok (Some (h', log)) => exists z', spec_handle fuel now handler 0 z (Ok (Some (log, z'))) /\ observed h' z' /\ links_ok h'
  | Ok None => spec_handle fuel now handler 0 z (Ok None)
  | Bug => spec_handle fuel now handler 0 z Bug
  | Fatal => False
  | UB => spec_handle fuel now handler 0 z UB
  end.
Proof.
  intros right l h z fuel now handler E Es. pose proof (ops_R right l heap_init no_tasks init_R) as H. rewrite Es in H. cbn [outcome] in H. destruct H as (h0 & E0 & HR). rewrite E in E0. injection E0 as <-.
  destruct (handle_R right fuel now handler 0 h z HR) as (q & Hq & Hs). destruct q as [[[log z']|]| | |]; cbn [handled] in Hq.
  - destruct Hq as (h' & Eh & HR'). rewrite Eh. exists z'. split; [exact Hs|]. split; [exact (observed_R h' z' HR') | exact (links_R h' z' HR')].
  - rewrite Hq. exact Hs.
  - rewrite Hq. exact Hs.
  - cbn [spec_handle] in Hs. destruct Hs as (? & ? & ? & ? & _ & _ & _ & X). destruct (spec_ops _ _); contradiction.
  - rewrite Hq. exact Hs.
Qed.
Lemma run_terminates : forall right l h now handler, task_ops_run right l heap_init = Ok h -> progressing now handler -> exists fuel0, forall fuel, fuel0 <= fuel -> task_handle right fuel now handler 0 h <> Ok None.
Proof.
  intros right l h now handler E Hp. pose proof (ops_R right l heap_init no_tasks init_R) as H. destruct (spec_ops l no_tasks) as [z| | |]; cbn [outcome] in H; try congruence. destruct H as (h0 & E0 & HR). rewrite E in E0. injection E0 as <-. exact (handle_terminates right now handler 0 h z HR Hp).
Qed.
Lemma run_once : forall right l h z fuel now handler h' log, task_ops_run right l heap_init = Ok h -> spec_ops l no_tasks = Ok z -> future_only now handler -> task_handle right fuel now handler 0 h = Ok (Some (h', log)) ->
  NoDup (map fst log) /\ StronglySorted (fun x y => (snd x <= snd y)%Z) log /\ (forall i t, In (i, t) log -> due now z i t) /\
  (forall i t, due now z i t -> (forall m j, Forall (fun o => op_task o <> i) (handler m j)) -> In (i, t) log).
Proof.
  intros right l h z fuel now handler h' log E Es Hf Eh. pose proof (run_exact right l h z fuel now handler E Es) as H. rewrite Eh in H. destruct H as (z' & [Hrun Hend] & _). destruct (run_due now handler 0 z log z' Hf Hrun) as [A B].
  split; [exact B|]. split; [apply (run_sorted now handler 0 z log z'); [intros n i; left; apply Hf | exact Hrun]|]. split; [exact A|]. intros i t Hi Hno. exact (run_complete now handler 0 z log z' i t Hrun Hend Hno Hi).
Qed.
Lemma run_ordered : forall right l h fuel now handler h' log, task_ops_run right l heap_init = Ok h -> progressing now handler -> task_handle right fuel now handler 0 h = Ok (Some (h', log)) -> StronglySorted (fun x y => (snd x <= snd y)%Z) log.
Proof.
  intros right l h fuel now handler h' log E Hp Eh. pose proof (ops_R right l heap_init no_tasks init_R) as H. destruct (spec_ops l no_tasks) as [z| | |] eqn:Es; cbn [outcome] in H; try congruence.
  pose proof (run_exact right l h z fuel now handler E Es) as X. rewrite Eh in X. destruct X as (z' & [Hrun _] & _). exact (run_sorted now handler 0 z log z' Hp Hrun).
Qed.
Lemma ops_app : forall right l1 l2 h h1 h2, task_ops_run right l1 h = Ok h1 -> task_ops_run right l2 h1 = Ok h2 -> task_ops_run right (l1 ++ l2) h = Ok h2.
Proof.
  intros right l1. induction l1 as [|o l1 IH]; intros l2 h h1 h2 E1 E2; cbn [task_ops_run app] in *; [injection E1 as <-; exact E2|]. destruct (task_op_run right o h) as [h0| | |]; cbn [bind] in *; try discriminate E1. exact (IH l2 h0 h1 h2 E1 E2).
Qed.
Lemma run_is_ops : forall right fuel now handler n h h' log, task_handle right fuel now handler n h = Ok (Some (h', log)) -> exists l, task_ops_run right l h = Ok h'.
Proof.
  intros right fuel now handler. induction fuel as [|fuel IH]; intros n h h' log E; cbn [task_handle] in E; (destruct (h_root h) as [i|]; [|injection E as <- _; exists []; reflexivity]); (destruct (read h i) as [c| | |]; cbn [bind] in E; try discriminate E);
    (destruct (timed_out now (c_value c)); cbn [negb] in E; [|injection E as <- _; exists []; reflexivity]); [discriminate E|].
  destruct (pqueue_remove right h i) as [h1| | |] eqn:E1; cbn [bind] in E; try discriminate E. destruct (task_ops_run right (handler n i) h1) as [h2| | |] eqn:E2; cbn [bind] in E; try discriminate E.
  destruct (task_handle right fuel now handler (S n) h2) as [[[h3 log3]|]| | |] eqn:E3; cbn [bind] in E; try discriminate E. injection E as <- _. destruct (IH _ _ _ _ E3) as (l & El). exists (OUnschedule i :: handler n i ++ l).
  cbn [task_ops_run task_op_run]. rewrite E1. cbn [bind]. exact (ops_app right _ _ _ _ _ E2 El).
Qed.
