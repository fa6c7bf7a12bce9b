(** Proofs for LifeProps.v: the whole process *)
From Coq Require Import List NArith Bool Lia.
From Verif Require Import LifeModel LifeSpec LifeProofs LifeProofs2.
Import ListNotations.
Local Open Scope N_scope.

Definition ww (c : config) (tr : list event) (w : world) : Prop :=
  cok c /\ gen c tr /\ NoDup (ids (w_peers w)) /\ lw c tr (w_peers w) /\
  Forall (fun p => p_id p < w_next w) (w_peers w) /\
  (forall id, ~ In id (ids (w_peers w)) -> closed_id id tr).

Lemma below_ids : forall (n : N) l, Forall (fun p => p_id p < n) l <-> (forall id, In id (ids l) -> id < n).
Proof.
  intros n l; split.
  - intros H id Hi; apply in_map_iff in Hi as (p & <- & Hp); exact (proj1 (Forall_forall _ _) H p Hp).
  - intros H; apply Forall_forall; intros p Hp; apply H, in_map, Hp.
Qed.

Lemma nodup_snoc : forall (l : list N) x, NoDup l -> ~ In x l -> NoDup (l ++ [x]).
Proof.
  intros l x; induction l as [| y r IH]; intros Nd Hn; cbn; [constructor; [intros [] | constructor] |].
  inversion Nd as [| a b H1 H2]; subst. constructor.
  - intros Hx; apply in_app_iff in Hx as [Hx | [<- | []]]; [exact (H1 Hx) | apply Hn; left; reflexivity].
  - apply IH; [exact H2 | intros Hx; apply Hn; right; exact Hx].
Qed.

Lemma ww_lpost : forall c tr w l' tr', ww c tr w -> lpost c (w_peers w) tr l' tr' -> ww c tr' (mk_world l' (w_next w)).
Proof.
  intros c tr w l' tr' (K & G & Nd & L & B & C) (G' & F & L' & Nd' & I' & C').
  split; [exact K | split; [exact G' | split; [exact Nd' | split; [exact L' | split]]]].
  - apply below_ids; intros id Hi; apply (proj1 (below_ids _ _) B), I', Hi.
  - intros id Hn; destruct (in_dec N.eq_dec id (ids (w_peers w))) as [Hy | Hy]; [exact (C' id Hy Hn) |].
    exact (closed_frames _ _ _ _ F Hy (C id Hy)).
Qed.

Lemma ww_insert : forall c tr w d dir st, ww c tr w -> ww c tr (insert_peer d dir st w).
Proof.
  intros c tr w d dir st (K & G & Nd & L & B & C).
  assert (Hn : ~ In (w_next w) (ids (w_peers w))) by (intros Hx; apply (proj1 (below_ids _ _) B) in Hx; lia).
  assert (Ei : ids (w_peers (insert_peer d dir st w)) = ids (w_peers w) ++ [w_next w]) by (unfold ids; cbn; rewrite map_app; reflexivity).
  split; [exact K | split; [exact G | rewrite Ei; split; [| split; [| split]]]].
  - apply nodup_snoc; [exact Nd | exact Hn].
  - apply Forall_app; split; [exact L | constructor; [| constructor]].
    destruct (C _ Hn) as (C1 & C2 & C3). unfold rep, stab; cbn; split; repeat split; intros; try assumption; try congruence; try discriminate.
  - apply below_ids; rewrite Ei; intros id Hi; apply in_app_iff in Hi as [Hi | [<- | []]]; cbn; [| lia].
    apply (proj1 (below_ids _ _) B) in Hi; lia.
  - intros id Hi; apply C; intros Hx; apply Hi, in_app_iff; left; exact Hx.
Qed.

Lemma nodup_same : forall l (p q : peer), NoDup (ids l) -> In p l -> In q l -> p_id p = p_id q -> p = q.
Proof.
  intros l p q; induction l as [| x r IH]; intros Nd Hp Hq E; [destruct Hp |].
  inversion Nd as [| a b Hn Nd']; subst.
  destruct Hp as [<- | Hp], Hq as [<- | Hq]; try reflexivity.
  - exfalso; apply Hn; rewrite E; apply in_map, Hq.
  - exfalso; apply Hn; rewrite <- E; apply in_map, Hp.
  - exact (IH Nd' Hp Hq E).
Qed.

(** Peers while the peer directories are read *)
Definition aa (c : config) (b : bool) (p : peer) : Prop := (b = true -> jj c p) /\ (is_dynamic p = true -> kk p).

Lemma peer_add_ok : forall c b d w o tr, ww c tr w -> Forall (aa c b) (w_peers w) ->
  match peer_add c d true CNew w o tr with
  | Go r _ tr' => ww c tr' (fst r) /\ Forall (aa c b) (w_peers (fst r))
  | Halt tr' => lawful tr' end.
Proof.
  intros c b d w o tr W HA.
  assert (New : forall w', Forall (aa c b) (w_peers w') -> Forall (aa c b) (w_peers (insert_peer d true CNew w'))).
  { intros w' H; apply Forall_app; split; [exact H | constructor; [| constructor]]. split; [intros _; unfold jj; cbn; discriminate | discriminate]. }
  assert (Drop : forall id,
    match bind (drop_peer c id (fun _ => true) (w_peers w)) (fun l => ret (insert_peer d true CNew (mk_world l (w_next w)), true)) o tr with
    | Go r _ tr' => ww c tr' (fst r) /\ Forall (aa c b) (w_peers (fst r))
    | Halt tr' => lawful tr' end).
  { intros id. pose proof W as (K & G & Nd & L & B & C). unfold bind.
    generalize (drop_peer_ok c id (fun _ => true) (aa c b) _ o tr G Nd L HA); destruct (drop_peer c id _ _ o tr) as [l o' tr' | tr']; [| intros []].
    intros (A1 & A2); cbn; split; [apply ww_insert, (ww_lpost _ _ _ _ _ W A1) | exact (New (mk_world l (w_next w)) A2)]. }
  assert (Mark : forall q k (x : bool), find_key (fst d) (w_peers w) = Some q -> is_dynamic q = false -> k <> CDynamic ->
    match bind (on_peer (p_id q) (fun p => ret (set_conf k p)) (w_peers w)) (fun l => ret (mk_world l (w_next w), x)) o tr with
    | Go r _ tr' => ww c tr' (fst r) /\ Forall (aa c b) (w_peers (fst r))
    | Halt tr' => lawful tr' end).
  { intros q k x Eq Dq Hk. pose proof W as (K & G & Nd & L & B & C). unfold bind.
    apply find_some in Eq as (Hq & _).
    assert (HA' : Forall (fun p => aa c b p /\ (p_id p = p_id q -> is_dynamic p = false)) (w_peers w)).
    { apply Forall_forall; intros p Hp; split; [exact (proj1 (Forall_forall _ _) HA p Hp) |].
      intros E; rewrite (nodup_same _ _ _ Nd Hp Hq E); exact Dq. }
    pose proof (on_peer_ok c (p_id q) (fun p => ret (set_conf k p)) (fun p => aa c b p /\ (p_id p = p_id q -> is_dynamic p = false)) (aa c b) (w_peers w) o tr) as HO.
    match type of HO with ?A -> _ => assert (H1 : A) end.
    { intros p o1 tr1 G1 R1 S1 (P1 & P2) Ei; cbn.
      assert (Hd : (match k with CDynamic => true | _ => false end) = is_dynamic p) by
        (rewrite (P2 Ei); destruct k; try reflexivity; congruence).
      destruct (set_conf_ok c k p tr1 R1 S1 Hd) as (R2 & S2).
      split; [exact G1 | split; [apply frame_refl | split; [exact R2 | split; [exact S2 | split; [reflexivity |]]]]].
      split; [exact (proj1 P1) |]. intros Hx; exfalso; unfold is_dynamic in Hx; cbn in Hx; destruct k; congruence. }
    specialize (HO H1 (fun p P1 _ => proj1 P1) G Nd L HA'); revert HO.
    destruct (on_peer _ _ _ o tr) as [l o' tr' | tr']; [| exact (fun y => y)].
    intros (A1 & A2 & _); cbn; split; [exact (ww_lpost _ _ _ _ _ W A1) | exact A2]. }
  unfold peer_add. destruct (find_key (fst d) (w_peers w)) as [q |] eqn:Eq.
  - destruct (p_conf q) eqn:Ec.
    + apply Mark; [reflexivity | unfold is_dynamic; rewrite Ec; reflexivity | discriminate].
    + destruct (p_cfg q =? snd d); [| apply Drop].
      apply Mark; [reflexivity | unfold is_dynamic; rewrite Ec; reflexivity | discriminate].
    + apply Mark; [reflexivity | unfold is_dynamic; rewrite Ec; reflexivity | discriminate].
    + apply Drop.
  - cbn; split; [apply ww_insert, W | apply New, HA].
Qed.

Lemma add_all_ok : forall c b defs w o tr, ww c tr w -> Forall (aa c b) (w_peers w) ->
  match add_all c defs w o tr with
  | Go w' _ tr' => ww c tr' w' /\ Forall (aa c b) (w_peers w')
  | Halt tr' => lawful tr' end.
Proof.
  intros c b defs; induction defs as [| d r IH]; intros w o tr W HA; [split; assumption |].
  cbn [add_all]; unfold bind; generalize (peer_add_ok c b d w o tr W HA).
  destruct (peer_add c d true CNew w o tr) as [x o1 tr1 | tr1]; [| exact (fun y => y)].
  intros (A1 & A2); exact (IH _ o1 tr1 A1 A2).
Qed.

Lemma pre_reload_ww : forall c b tr w, ww c tr w -> Forall kk (w_peers w) -> (b = true -> Forall (jj c) (w_peers w)) ->
  ww c tr (mk_world (map pre_reload (w_peers w)) (w_next w)) /\ Forall (aa c b) (map pre_reload (w_peers w)).
Proof.
  intros c b tr w (K & G & Nd & L & B & C) HK HJ.
  assert (Pi : forall p, p_id (pre_reload p) = p_id p) by
    (intros p; unfold pre_reload; destruct (is_dynamic p), (p_dir p), (p_conf p); reflexivity).
  assert (Ei : ids (map pre_reload (w_peers w)) = ids (w_peers w)) by
    (unfold ids; rewrite map_map; apply map_ext; exact Pi).
  assert (HP : forall p tr0, rep c tr0 p -> stab c p -> rep c tr0 (pre_reload p) /\ stab c (pre_reload p)).
  { intros p tr0 R0 S0; unfold pre_reload.
    destruct (is_dynamic p) eqn:Ed; [split; assumption |].
    destruct (p_dir p); cbn; [destruct (p_conf p) eqn:Ec; try (split; assumption) |];
      apply set_conf_ok; try assumption; rewrite Ed; reflexivity. }
  split; [split; [exact K | split; [exact G | cbn [w_peers w_next]; rewrite Ei; split; [exact Nd | split; [| split; [| exact C]]]]] |].
  - apply Forall_forall; intros p Hp; apply in_map_iff in Hp as (p0 & <- & Hp).
    destruct (proj1 (Forall_forall _ _) L p0 Hp) as (R0 & S0); apply HP; assumption.
  - apply below_ids; rewrite Ei; apply below_ids, B.
  - apply Forall_forall; intros p Hp; apply in_map_iff in Hp as (p0 & <- & Hp).
    pose proof (proj1 (Forall_forall _ _) HK p0 Hp) as Kp.
    split.
    + intros E; pose proof (proj1 (Forall_forall _ _) (HJ E) p0 Hp) as Jp; clear - Jp.
      unfold jj, pre_reload in *; destruct (is_dynamic p0), (p_dir p0) eqn:E, (p_conf p0); cbn; rewrite ?E; auto.
    + intros Hx. unfold pre_reload in *. destruct (is_dynamic p0) eqn:Ed; [exact Kp |].
      exfalso; clear - Hx Ed; unfold is_dynamic in *; destruct (p_dir p0), (p_conf p0) eqn:E; cbn in *; rewrite ?E in *; congruence.
Qed.

Definition sw (c : config) (tr : list event) (w : world) : Prop := ww c tr w /\ Forall kk (w_peers w).

Lemma load_peer_dirs_ok : forall c b defs w o tr, sw c tr w -> (b = true -> Forall (jj c) (w_peers w)) ->
  match load_peer_dirs c b defs w o tr with
  | Go w' _ tr' => sw c tr' w'
  | Halt tr' => lawful tr' end.
Proof.
  intros c b defs w o tr (W & HK) HJ.
  destruct (pre_reload_ww c b tr w W HK HJ) as (W0 & A0).
  unfold load_peer_dirs, bind.
  generalize (add_all_ok c b defs _ o tr W0 A0). destruct (add_all c defs _ o tr) as [w1 o1 tr1 | tr1]; [| exact (fun y => y)].
  intros (W1 & A1). pose proof W1 as (K & G & Nd & L & B & C).
  assert (J1 : b = true -> Forall (jj c) (w_peers w1)) by
    (intros E; apply Forall_forall; intros p Hp; exact (proj1 (proj1 (Forall_forall _ _) A1 p Hp) E)).
  assert (D1 : Forall (fun p => is_dynamic p = true -> kk p) (w_peers w1)) by
    (apply Forall_forall; intros p Hp; exact (proj2 (proj1 (Forall_forall _ _) A1 p Hp))).
  generalize (configure_peers_ok c b _ o1 tr1 G Nd L J1 D1). destruct (configure_peers c b _ o1 tr1) as [l o2 tr2 | tr2]; [| exact (fun y => y)].
  intros (X1 & X2 & _); cbn; split; [exact (ww_lpost _ _ _ _ _ W1 X1) | exact X2].
Qed.

Lemma do_op_ok : forall c x w o tr, sw c tr w ->
  match do_op c w x o tr with
  | Go w' _ tr' => sw c tr' w'
  | Halt tr' => lawful tr' end.
Proof.
  intros c x w o tr SW; pose proof SW as (W & HK); pose proof W as (K & G & Nd & L & B & C).
  destruct x as [id | id | id off | key | defs |]; cbn [do_op]; unfold bind.
  - generalize (on_peer_ok c id (peer_reset c) kk kk _ o tr
      (fun p o tr G R Sb Hk _ => reset_kk c p o tr G R Sb (proj1 Hk)) (fun p Hp _ => Hp) G Nd L HK).
    destruct (on_peer id _ _ o tr) as [l o' tr' | tr']; [| exact (fun y => y)].
    intros (A1 & A2 & _); cbn; split; [exact (ww_lpost _ _ _ _ _ W A1) | exact A2].
  - generalize (drop_peer_ok c id is_dynamic kk _ o tr G Nd L HK).
    destruct (drop_peer c id _ _ o tr) as [l o' tr' | tr']; [| intros []].
    intros (A1 & A2); cbn; split; [exact (ww_lpost _ _ _ _ _ W A1) | exact A2].
  - pose proof (on_peer_ok c id (establish c off) kk kk (w_peers w) o tr) as HO.
    match type of HO with ?A -> _ => assert (H1 : A) end.
    { intros p o1 tr1 G1 R1 S1 (K1 & K2) _.
      assert (Hi : is_enabled p = true -> p_st p <> Inactive) by
        (intros E Es; unfold is_inactive in K2; rewrite E, Es in K2; discriminate).
      generalize (establish_ok c off p o1 tr1 K G1 R1 S1 Hi). destruct (establish c off p o1 tr1) as [p' o' tr' | tr']; [| exact (fun y => y)].
      intros (A1 & A2 & A3 & A4 & (B1 & B2 & B3 & B4 & B5) & A6 & A7).
      split; [exact A1 | split; [exact A2 | split; [exact A3 | split; [exact A4 | split; [exact B1 |]]]]].
      split; [congruence |]. destruct (is_enabled p) eqn:En.
      + specialize (A6 eq_refl). unfold is_enabled, is_inactive in *; rewrite B5, En; destruct (p_st p'); try reflexivity; congruence.
      + rewrite (A7 eq_refl); rewrite En; exact K2. }
    specialize (HO H1 (fun p Hp _ => Hp) G Nd L HK); revert HO.
    destruct (on_peer id _ _ o tr) as [l o' tr' | tr']; [| exact (fun y => y)].
    intros (A1 & A2 & _); cbn; split; [exact (ww_lpost _ _ _ _ _ W A1) | exact A2].
  - destruct (find_key key (w_peers w)); [exact SW |].
    pose proof (ww_insert c tr w (key, 0) false CDynamic W) as W1.
    pose proof W1 as (K1 & G1 & Nd1 & L1 & B1 & C1).
    assert (HK1 : Forall (fun p => p_conf p <> CNew /\ (p_id p <> w_next w -> kk p)) (w_peers (insert_peer (key, 0) false CDynamic w))).
    { apply Forall_app; split.
      - apply Forall_forall; intros p Hp; pose proof (proj1 (Forall_forall _ _) HK p Hp) as Kp; split; [exact (proj1 Kp) | intros _; exact Kp].
      - constructor; [| constructor]. split; [discriminate | intros Hx; exfalso; apply Hx; reflexivity]. }
    generalize (on_peer_ok c (w_next w) (peer_reset c) _ kk _ o tr
      (fun p o tr G R Sb Hk _ => reset_kk c p o tr G R Sb (proj1 Hk)) (fun p Hp Hq => proj2 Hp Hq) G1 Nd1 L1 HK1).
    destruct (on_peer (w_next w) _ _ o tr) as [l o' tr' | tr']; [| exact (fun y => y)].
    intros (A1 & A2 & _); cbn; split; [exact (ww_lpost _ _ _ _ _ W1 A1) | exact A2].
  - apply load_peer_dirs_ok; [exact SW | discriminate].
  - generalize (reset_all_ok c _ o tr G Nd L HK). destruct (reset_all c _ o tr) as [l o' tr' | tr']; [| exact (fun y => y)].
    intros (A1 & A2); cbn; split; [exact (ww_lpost _ _ _ _ _ W A1) | exact A2].
Qed.

Lemma do_ops_ok : forall c ops w o tr, sw c tr w ->
  match do_ops c ops w o tr with
  | Go w' _ tr' => sw c tr' w'
  | Halt tr' => lawful tr' end.
Proof.
  intros c ops; induction ops as [| x r IH]; intros w o tr SW; [exact SW |].
  cbn [do_ops]; unfold bind; generalize (do_op_ok c x w o tr SW).
  destruct (do_op c w x o tr) as [w1 o1 tr1 | tr1]; [| exact (fun y => y)].
  intros A; exact (IH w1 o1 tr1 A).
Qed.

(** Reading the configuration opens nothing *)
Definition raw (w : world) : Prop :=
  NoDup (ids (w_peers w)) /\ Forall (fun p => p_id p < w_next w) (w_peers w) /\
  Forall (fun p => p_conf p = CNew /\ p_st p = Inactive /\ p_if p = NoIf /\ p_off p = None) (w_peers w).
Lemma add_static_ok : forall c defs w o tr, raw w ->
  match add_static c defs w o tr with
  | Go w' _ tr' => tr' = tr /\ raw w'
  | Halt tr' => tr' = tr end.
Proof.
  intros c defs; induction defs as [| d r IH]; intros w o tr (Nd & B & H); [cbn; repeat split; assumption |].
  cbn [add_static]; unfold bind, peer_add.
  destruct (find_key (fst d) (w_peers w)) as [q |] eqn:Eq.
  - apply find_some in Eq as (Hq & _).
    destruct (proj1 (Forall_forall _ _) H q Hq) as (Ec & _); rewrite Ec.
    assert (P : forall l o0 tr0, exists l', on_peer (p_id q) (fun p => ret (set_conf CDisabled p)) l o0 tr0 = Go l' o0 tr0).
    { intros l; induction l as [| p l IHl]; intros o0 tr0; [eexists; reflexivity |].
      cbn [on_peer]; destruct (p_id p =? p_id q); [eexists; reflexivity |].
      destruct (IHl o0 tr0) as (l' & E); unfold bind; rewrite E; eexists; reflexivity. }
    destruct (P (w_peers w) o tr) as (l' & E); unfold bind; rewrite E; reflexivity.
  - cbn. apply IH. unfold raw.
    assert (Ei : ids (w_peers (insert_peer d false CNew w)) = ids (w_peers w) ++ [w_next w]) by (unfold ids; cbn; rewrite map_app; reflexivity).
    rewrite Ei; split; [| split].
    + apply nodup_snoc; [exact Nd | intros Hx].
      apply (proj1 (below_ids _ _) B) in Hx; lia.
    + apply below_ids; rewrite Ei; intros id Hi; apply in_app_iff in Hi as [Hi | [<- | []]]; cbn; [| lia].
      apply (proj1 (below_ids _ _) B) in Hi; lia.
    + apply Forall_app; split; [exact H | constructor; [repeat split | constructor]].
Qed.

Lemma raw_ww : forall c tr w, cok c -> gen c tr -> (forall id, closed_id id tr) -> raw w -> ww c tr w.
Proof.
  intros c tr w K G C (Nd & B & H).
  split; [exact K | split; [exact G | split; [exact Nd | split; [| split; [exact B | intros id _; apply C]]]]].
  apply Forall_forall; intros p Hp; destruct (proj1 (Forall_forall _ _) H p Hp) as (E1 & E2 & E3 & E4).
  destruct (C (p_id p)) as (C1 & C2 & C3).
  unfold rep, stab, has_private, is_established; rewrite E2, E3, E4; split; repeat split; intros; try assumption; try congruence; try discriminate.
Qed.

Lemma init_ok : forall c static dirs o,
  match init c static dirs o [] with
  | Go w _ tr => sw c tr w
  | Halt tr => lawful tr end.
Proof.
  intros c static dirs o. unfold init, bind at 1.
  destruct (c_offload c && (c_shared c || c_persist c)) eqn:Ec; [exact I |].
  cbn [ret]. unfold bind at 1.
  assert (K : cok c) by (intros E; rewrite E in Ec; cbn in Ec; apply orb_false_iff in Ec; exact Ec).
  assert (R0 : raw (mk_world [] 1)) by (repeat split; constructor).
  generalize (add_static_ok c static (mk_world [] 1) o [] R0).
  destruct (add_static c static (mk_world [] 1) o []) as [w1 o1 tr1 | tr1]; [| intros ->; exact I].
  intros (-> & R1).
  assert (Rest : forall o2 tr2, gen c tr2 -> (forall id, closed_id id tr2) ->
    match bind (configure_peers c false (w_peers w1)) (fun l => load_peer_dirs c true dirs (mk_world l (w_next w1))) o2 tr2 with
    | Go w _ tr => sw c tr w | Halt tr => lawful tr end).
  { intros o2 tr2 G2 C2. pose proof (raw_ww c tr2 w1 K G2 C2 R1) as W. pose proof W as (_ & _ & Nd & L & _).
    destruct R1 as (_ & _ & H).
    assert (D : Forall (fun p => is_dynamic p = true -> kk p) (w_peers w1)) by
      (apply Forall_forall; intros p Hp; destruct (proj1 (Forall_forall _ _) H p Hp) as (E1 & _); unfold is_dynamic; rewrite E1; discriminate).
    unfold bind. generalize (configure_peers_ok c false _ o2 tr2 G2 Nd L ltac:(discriminate) D).
    destruct (configure_peers c false (w_peers w1) o2 tr2) as [l o3 tr3 | tr3]; [| exact (fun y => y)].
    intros (X1 & X2 & X3). apply load_peer_dirs_ok.
    - split; [exact (ww_lpost _ _ _ _ _ W X1) | exact X2].
    - intros _; apply X3. apply Forall_forall; intros p Hp; destruct (proj1 (Forall_forall _ _) H p Hp) as (E1 & _); congruence. }
  unfold emit, when, iface_open, ask, exit1, bind at 1.
  unfold bind at 1.
  destruct (c_shared c) eqn:Es.
  - destruct o1 as [| [|] o1]; cbn - [configure_peers load_peer_dirs].
    1, 2: apply Rest.
    all: try (unfold gen, lawful, legal; rewrite ?Es; cbn; intuition (try congruence; try discriminate)).
    all: try (repeat split).
    all: match goal with H : In _ [_] |- _ => destruct H as [<- | []]; reflexivity | _ => idtac end.
  - cbn - [configure_peers load_peer_dirs]. apply Rest.
    + unfold gen, lawful, legal; rewrite ?Es; cbn; intuition (try congruence; try discriminate).
    + intros id; repeat split.
Qed.

Lemma running_ok : forall c static dirs ops o,
  match running c static dirs ops o [] with
  | Go w _ tr => sw c tr w
  | Halt tr => lawful tr end.
Proof.
  intros c static dirs ops o; unfold running, bind.
  generalize (init_ok c static dirs o); destruct (init c static dirs o []) as [w o1 tr | tr]; [| exact (fun y => y)].
  intros SW; apply do_ops_ok; exact SW.
Qed.

Lemma main_ok : forall c static dirs ops o,
  match main c static dirs ops o [] with
  | Go _ _ tr => lawful tr /\ exists r, tr = EPostDown :: r
  | Halt tr => lawful tr end.
Proof.
  intros c static dirs ops o; unfold main, bind at 1.
  generalize (running_ok c static dirs ops o); destruct (running c static dirs ops o []) as [w o1 tr | tr]; [| exact (fun y => y)].
  intros ((K & G & Nd & L & B & C) & _). unfold cleanup, bind at 1.
  generalize (delete_peers_ok c _ o1 tr G Nd L); destruct (delete_peers c (w_peers w) o1 tr) as [u o2 tr2 | tr2]; [| intros []].
  intros ((Lw & I1 & I2 & I3 & Sm) & F & _ & _ & _ & C2).
  assert (Cl : forall id, closed_id id tr2).
  { intros id. destruct (in_dec N.eq_dec id (ids (w_peers w))) as [Hy | Hy]; [exact (C2 id Hy (fun x => x)) |].
    exact (closed_frames _ _ _ _ F Hy (C id Hy)). }
  unfold when, emit, bind, ret. destruct (c_shared c) eqn:Es.
  - split; [| eexists; reflexivity].
    split; [| split; [| split; [| exact Lw]]].
    + split; [intros [H | [H | H]]; [discriminate | discriminate | exact (I3 H)] |].
      split; [right; right; exact I1 |]. split.
      * intros [| p | p]; cbn; [reflexivity | exact (proj1 (Cl p)) | exact (proj1 (proj2 (Cl p)))].
      * intros p; exact (proj2 (proj2 (Cl p))).
    + split; [intros [H | H]; [discriminate | exact (I3 H)] | reflexivity].
    + split; [exact I3 |]. split; [exact Sm |]. intros _ p; exact (Cl p).
  - split; [| eexists; reflexivity].
    split; [| exact Lw]. split; [exact I3 |]. split; [exact I1 |]. split.
    + intros [| p | p]; [exact Sm | exact (proj1 (Cl p)) | exact (proj1 (proj2 (Cl p)))].
    + intros p; exact (proj2 (proj2 (Cl p))).
Qed.
