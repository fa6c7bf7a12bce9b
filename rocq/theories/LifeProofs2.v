(** Proofs for LifeProps.v: lists of peers *)
From Coq Require Import List NArith Bool Lia.
From Verif Require Import LifeModel LifeSpec LifeProofs.
Import ListNotations.
Local Open Scope N_scope.

Definition ids (l : list peer) : list N := map p_id l.
Definition closed_id (id : N) (tr : list event) : Prop :=
  stage_of (Own id) tr = Closed /\ stage_of (Offload id) tr = Closed /\ connected id tr = false.
(** Nothing is said about peers outside [l] *)
Definition frames (l : list N) (tr tr' : list event) : Prop :=
  forall q, ~ In q l ->
    stage_of (Own q) tr' = stage_of (Own q) tr /\
    stage_of (Offload q) tr' = stage_of (Offload q) tr /\
    connected q tr' = connected q tr.
Definition lw (c : config) (tr : list event) (l : list peer) : Prop := Forall (fun p => rep c tr p /\ stab c p) l.

Definition lpost (c : config) (l : list peer) (tr : list event) (l' : list peer) (tr' : list event) : Prop :=
  gen c tr' /\ frames (ids l) tr tr' /\ lw c tr' l' /\ NoDup (ids l') /\ incl (ids l') (ids l) /\
  (forall id, In id (ids l) -> ~ In id (ids l') -> closed_id id tr').

Lemma frames_refl : forall l tr, frames l tr tr.
Proof. intros l tr q _; repeat split. Qed.
Lemma frames_trans : forall l a b d, frames l a b -> frames l b d -> frames l a d.
Proof.
  intros l a b d H1 H2 q Hq; destruct (H1 q Hq) as (A1 & A2 & A3); destruct (H2 q Hq) as (B1 & B2 & B3).
  rewrite B1, B2, B3; repeat split; assumption.
Qed.
Lemma frames_incl : forall l l' a b, incl l l' -> frames l a b -> frames l' a b.
Proof. intros l l' a b Hi H q Hq; apply H; intros Hx; exact (Hq (Hi _ Hx)). Qed.
Lemma frame_frames : forall id l a b, In id l -> frame id a b -> frames l a b.
Proof. intros id l a b Hi H q Hq; apply H; intros ->; exact (Hq Hi). Qed.

Lemma rep_frames : forall c l tr tr' p, frames l tr tr' -> ~ In (p_id p) l -> rep c tr p -> rep c tr' p.
Proof.
  intros c l tr tr' p F Hn (R1 & R2 & R3 & R4 & R5); destruct (F _ Hn) as (A & B & C).
  unfold rep; rewrite A, B, C; repeat split; assumption.
Qed.
Lemma closed_frames : forall l tr tr' id, frames l tr tr' -> ~ In id l -> closed_id id tr -> closed_id id tr'.
Proof. intros l tr tr' id F Hn (R1 & R2 & R3); destruct (F _ Hn) as (A & B & C); unfold closed_id; rewrite A, B, C; repeat split; assumption. Qed.
Lemma lw_frames : forall c l tr tr' ps, frames l tr tr' -> (forall id, In id (ids ps) -> ~ In id l) -> lw c tr ps -> lw c tr' ps.
Proof.
  intros c l tr tr' ps F Hn H; apply Forall_forall; intros p Hp; apply (proj1 (Forall_forall _ _) H) in Hp as Hq.
  destruct Hq as (R & S0); split; [| exact S0]. apply (rep_frames _ _ _ _ _ F); [| exact R]. apply Hn, in_map, Hp.
Qed.
Lemma frames_nin : forall (id : N) (l : list N) tr tr', ~ In id l -> frames [id] tr tr' ->
  forall q, In q l -> ~ In q [id].
Proof. intros id l tr tr' Hn _ q Hq [<- | []]; exact (Hn Hq). Qed.
Lemma frame_one : forall id tr tr', frame id tr tr' -> frames [id] tr tr'.
Proof. intros id tr tr' F; apply (frame_frames id); [left; reflexivity | exact F]. Qed.

(** One peer at the head *)
Lemma head_keep : forall c p r tr p' tr', NoDup (ids (p :: r)) -> lw c tr (p :: r) ->
  gen c tr' -> frame (p_id p) tr tr' -> rep c tr' p' -> stab c p' -> p_id p' = p_id p ->
  lpost c (p :: r) tr (p' :: r) tr'.
Proof.
  intros c p r tr p' tr' Nd L G F R Sb Ei.
  inversion Nd as [| x y Hn Nd' Exy]; subst x y.
  split; [exact G | split; [| split; [| split; [| split]]]].
  - apply (frame_frames (p_id p)); [left; reflexivity | exact F].
  - constructor; [split; assumption |]. inversion L; subst.
    apply (lw_frames c [p_id p] tr); [apply frame_one, F | | assumption].
    intros q Hq [<- | []]; exact (Hn Hq).
  - cbn; rewrite Ei; exact Nd.
  - cbn; rewrite Ei; apply incl_refl.
  - cbn; rewrite Ei; intros id Hi Hx; contradiction.
Qed.
Lemma head_drop : forall c p r tr tr', NoDup (ids (p :: r)) -> lw c tr (p :: r) ->
  gen c tr' -> frame (p_id p) tr tr' -> closed_id (p_id p) tr' ->
  lpost c (p :: r) tr r tr'.
Proof.
  intros c p r tr tr' Nd L G F Hc.
  inversion Nd as [| x y Hn Nd' Exy]; subst x y.
  split; [exact G | split; [| split; [| split; [exact Nd' | split]]]].
  - apply (frame_frames (p_id p)); [left; reflexivity | exact F].
  - inversion L; subst.
    apply (lw_frames c [p_id p] tr); [apply frame_one, F | | assumption].
    intros q Hq [<- | []]; exact (Hn Hq).
  - intros q Hq; right; exact Hq.
  - cbn; intros id [<- | Hi] Hx; [exact Hc | contradiction].
Qed.
(** The rest first *)
Lemma tail_keep : forall c p r tr r' tr', NoDup (ids (p :: r)) -> lw c tr (p :: r) ->
  lpost c r tr r' tr' -> lpost c (p :: r) tr (p :: r') tr'.
Proof.
  intros c p r tr r' tr' Nd L (G & F & L' & Nd' & Hi & Hc).
  inversion Nd as [| x y Hn Nd0 Exy]; subst x y. inversion L as [| x y [R Sb] L0]; subst.
  split; [exact G | split; [| split; [| split; [| split]]]].
  - apply (frames_incl (ids r)); [intros q Hq; right; exact Hq | exact F].
  - constructor; [split; [| exact Sb] | exact L']. apply (rep_frames _ _ _ _ _ F Hn R).
  - constructor; [intros Hx; exact (Hn (Hi _ Hx)) | exact Nd'].
  - intros q [<- | Hq]; [left; reflexivity | right; exact (Hi _ Hq)].
  - intros id [<- | Hx] Hy; [exfalso; apply Hy; left; reflexivity |].
    apply (Hc id Hx); intros Hz; apply Hy; right; exact Hz.
Qed.
Lemma lpost_trans : forall c l tr l1 tr1 l2 tr2,
  lpost c l tr l1 tr1 -> lpost c l1 tr1 l2 tr2 -> lpost c l tr l2 tr2.
Proof.
  intros c l tr l1 tr1 l2 tr2 (G1 & F1 & L1 & N1 & I1 & C1) (G2 & F2 & L2 & N2 & I2 & C2).
  split; [exact G2 | split; [| split; [exact L2 | split; [exact N2 | split]]]].
  - apply (frames_trans _ _ tr1); [exact F1 | exact (frames_incl _ _ _ _ I1 F2)].
  - exact (incl_tran I2 I1).
  - intros id Hi Hx. destruct (in_dec N.eq_dec id (ids l1)) as [Hy | Hy]; [exact (C2 id Hy Hx) |].
    exact (closed_frames _ _ _ _ F2 Hy (C1 id Hi Hy)).
Qed.
Lemma lpost_refl : forall c l tr, gen c tr -> NoDup (ids l) -> lw c tr l -> lpost c l tr l tr.
Proof.
  intros c l tr G N0 L; split; [exact G | split; [apply frames_refl | split; [exact L | split; [exact N0 | split; [apply incl_refl |]]]]].
  intros; contradiction.
Qed.

(** [on_peer] *)
Lemma on_peer_ok : forall c id (f : peer -> M peer) (P : peer -> Prop) (Q : peer -> Prop) l o tr,
  (forall p o tr, gen c tr -> rep c tr p -> stab c p -> P p -> p_id p = id ->
     match f p o tr with
     | Go p' _ tr' => gen c tr' /\ frame (p_id p) tr tr' /\ rep c tr' p' /\ stab c p' /\ p_id p' = p_id p /\ Q p'
     | Halt tr' => lawful tr' end) ->
  (forall p, P p -> p_id p <> id -> Q p) ->
  gen c tr -> NoDup (ids l) -> lw c tr l -> Forall P l ->
  match on_peer id f l o tr with
  | Go l' _ tr' => lpost c l tr l' tr' /\ Forall Q l' /\ ids l' = ids l
  | Halt tr' => lawful tr' end.
Proof.
  intros c id f P Q l o tr Hf Hpq G; revert o tr G.
  induction l as [| p r IH]; intros o tr G Nd L HP.
  - cbn; split; [apply lpost_refl; assumption | split; [constructor | reflexivity]].
  - inversion HP as [| x y Hp HP']; subst x y. inversion L as [| x y [R Sb] L']; subst x y.
    cbn [on_peer]; destruct (N.eqb_spec (p_id p) id) as [E | E].
    + unfold bind; generalize (Hf p o tr G R Sb Hp E); destruct (f p o tr) as [p' o' tr' | tr']; [| exact (fun x => x)].
      intros (A1 & A2 & A3 & A4 & A5 & A6); cbn; split; [| split].
      * exact (head_keep _ _ _ _ _ _ Nd L A1 A2 A3 A4 A5).
      * constructor; [exact A6 |]. apply Forall_forall; intros q Hq. apply Hpq; [exact (proj1 (Forall_forall _ _) HP' q Hq) |].
        intros Ex; inversion Nd as [| x y Hn _]; subst; apply Hn; rewrite <- Ex; apply in_map, Hq.
      * unfold ids; cbn; rewrite A5; reflexivity.
    + assert (Nd' : NoDup (ids r)) by (inversion Nd; assumption).
      unfold bind; generalize (IH o tr G Nd' L' HP'); destruct (on_peer id f r o tr) as [r' o' tr' | tr']; [| exact (fun x => x)].
      intros (A1 & A2 & A3); cbn; split; [exact (tail_keep _ _ _ _ _ _ Nd L A1) | split; [constructor; [apply Hpq; assumption | exact A2] |]].
      unfold ids in *; cbn; rewrite A3; reflexivity.
Qed.

(** [drop_peer] *)
Lemma drop_peer_ok : forall c id g (P : peer -> Prop) l o tr,
  gen c tr -> NoDup (ids l) -> lw c tr l -> Forall P l ->
  match drop_peer c id g l o tr with
  | Go l' _ tr' => lpost c l tr l' tr' /\ Forall P l'
  | Halt tr' => False end.
Proof.
  intros c id g P l o tr G; revert o tr G.
  induction l as [| p r IH]; intros o tr G Nd L HP.
  - cbn; split; [apply lpost_refl; assumption | constructor].
  - inversion HP as [| x y Hp HP']; subst x y. inversion L as [| x y [R Sb] L']; subst x y.
    cbn [drop_peer]; destruct (N.eqb_spec (p_id p) id) as [E | E].
    + destruct (g p); [| split; [apply lpost_refl; assumption | assumption]].
      unfold bind; generalize (peer_delete_ok c p o tr G R); destruct (peer_delete c p o tr) as [p' o' tr' | tr']; [| exact (fun x => x)].
      intros (A1 & A2 & A3); cbn; split; [exact (head_drop _ _ _ _ _ Nd L A1 A2 A3) | assumption].
    + assert (Nd' : NoDup (ids r)) by (inversion Nd; assumption).
      unfold bind; generalize (IH o tr G Nd' L' HP'); destruct (drop_peer c id g r o tr) as [r' o' tr' | tr']; [| exact (fun x => x)].
      intros (A1 & A2); cbn; split; [exact (tail_keep _ _ _ _ _ _ Nd L A1) | constructor; assumption].
Qed.

(** [delete_peers] *)
Lemma delete_peers_ok : forall c l o tr, gen c tr -> NoDup (ids l) -> lw c tr l ->
  match delete_peers c l o tr with
  | Go _ _ tr' => lpost c l tr [] tr'
  | Halt tr' => False end.
Proof.
  intros c l; induction l as [| p r IH]; intros o tr G Nd L.
  - cbn; apply lpost_refl; assumption.
  - assert (Nd' : NoDup (ids r)) by (inversion Nd; assumption).
    inversion L as [| x y [R Sb] L']; subst x y.
    cbn [delete_peers]; unfold bind; generalize (IH o tr G Nd' L'); destruct (delete_peers c r o tr) as [u o1 tr1 | tr1]; [| exact (fun x => x)].
    intros A1. pose proof (tail_keep _ _ _ _ _ _ Nd L A1) as A2.
    assert (A3 : gen c tr1 /\ rep c tr1 p) by
      (split; [exact (proj1 A2) | destruct A2 as (_ & _ & B & _); inversion B; subst; tauto]).
    destruct A3 as (G1 & R1).
    generalize (peer_delete_ok c p o1 tr1 G1 R1); destruct (peer_delete c p o1 tr1) as [p' o' tr' | tr']; [| exact (fun x => x)].
    intros (B1 & B2 & B3).
    apply (lpost_trans _ _ _ [p] tr1); [exact A2 |].
    apply head_drop; try assumption; destruct A2 as (_ & _ & C1 & C2 & _); assumption.
Qed.

(** The state of a peer between two operations *)
Definition kk (p : peer) : Prop := p_conf p <> CNew /\ is_enabled p = negb (is_inactive p).

Lemma reset_kk : forall c p o tr, gen c tr -> rep c tr p -> stab c p -> p_conf p <> CNew ->
  match peer_reset c p o tr with
  | Go p' _ tr' => gen c tr' /\ frame (p_id p) tr tr' /\ rep c tr' p' /\ stab c p' /\ p_id p' = p_id p /\ kk p'
  | Halt tr' => lawful tr' end.
Proof.
  intros c p o tr G R Sb Hc.
  generalize (peer_reset_ok c p o tr G R (stab_weak _ _ Sb) Hc); destruct (peer_reset c p o tr) as [p' o' tr' | tr']; [| exact (fun x => x)].
  intros (A1 & A2 & A3 & A4 & (S1 & S2 & S3 & S4 & S5) & A6).
  split; [exact A1 | split; [exact A2 | split; [exact A3 | split; [exact A4 | split; [exact S1 |]]]]].
  split; [congruence |]. unfold is_enabled, is_inactive in *; rewrite S5, A6; destruct (p_conf p); reflexivity.
Qed.

(** [reset_all] *)
Lemma reset_all_ok : forall c l o tr, gen c tr -> NoDup (ids l) -> lw c tr l -> Forall kk l ->
  match reset_all c l o tr with
  | Go l' _ tr' => lpost c l tr l' tr' /\ Forall kk l'
  | Halt tr' => lawful tr' end.
Proof.
  intros c l; induction l as [| p r IH]; intros o tr G Nd L HP.
  - cbn; split; [apply lpost_refl; assumption | constructor].
  - assert (Nd' : NoDup (ids r)) by (inversion Nd; assumption).
    inversion HP as [| x y Hp HP']; subst x y. inversion L as [| x y [R Sb] L']; subst x y.
    cbn [reset_all]; unfold bind; destruct (is_dynamic p).
    + generalize (peer_delete_ok c p o tr G R); destruct (peer_delete c p o tr) as [u o1 tr1 | tr1]; [| intros []].
      intros (B1 & B2 & B3). pose proof (head_drop _ _ _ _ _ Nd L B1 B2 B3) as A1.
      pose proof A1 as (_ & _ & C1 & C2 & _).
      generalize (IH o1 tr1 B1 C2 C1 HP'); destruct (reset_all c r o1 tr1) as [r' o' tr' | tr']; [| exact (fun x => x)].
      intros (D1 & D2); split; [exact (lpost_trans _ _ _ _ _ _ _ A1 D1) | exact D2].
    + generalize (reset_kk c p o tr G R Sb (proj1 Hp)); destruct (peer_reset c p o tr) as [p1 o1 tr1 | tr1]; [| exact (fun x => x)].
      intros (B1 & B2 & B3 & B4 & B5 & B6). pose proof (head_keep _ _ _ _ _ _ Nd L B1 B2 B3 B4 B5) as A1.
      pose proof A1 as (_ & _ & C1 & C2 & _).
      assert (C1' : lw c tr1 r) by (inversion C1; assumption).
      generalize (IH o1 tr1 B1 Nd' C1' HP'); destruct (reset_all c r o1 tr1) as [r' o' tr' | tr']; [| exact (fun x => x)].
      intros (D1 & D2); cbn; split; [| constructor; assumption].
      apply (lpost_trans _ _ _ _ _ _ _ A1). apply tail_keep; assumption.
Qed.

(** Changes of the configuration state *)
Lemma set_conf_ok : forall c k p tr, rep c tr p -> stab c p -> (match k with CDynamic => true | _ => false end) = is_dynamic p ->
  rep c tr (set_conf k p) /\ stab c (set_conf k p).
Proof.
  intros c k p tr R Sb Hd; split; [exact R |].
  destruct Sb as (S1 & S2 & S3 & S4 & S5 & S6); unfold stab, is_dynamic in *; cbn in *; rewrite Hd; repeat split; try assumption;
    try (apply S1; assumption); try (apply S2; assumption); try (apply S3; assumption).
Qed.

(** [configure_peers] *)
Definition jj (c : config) (p : peer) : Prop := p_dir p = false -> p_key p <> c_own c -> p_st p <> Inactive.
Lemma configure_peer_ok : forall c dirs p o tr, gen c tr -> rep c tr p -> stab c p ->
  (dirs = true -> jj c p) -> (is_dynamic p = true -> kk p) ->
  match configure_peer c dirs p o tr with
  | Go (Some p') _ tr' => gen c tr' /\ frame (p_id p) tr tr' /\ rep c tr' p' /\ stab c p' /\ p_id p' = p_id p /\ kk p' /\
      (p_key p' = p_key p /\ p_dir p' = p_dir p /\ (p_conf p <> CDisabled -> p_key p <> c_own c -> p_conf p' <> CDisabled))
  | Go None _ tr' => gen c tr' /\ frame (p_id p) tr tr' /\ closed_id (p_id p) tr'
  | Halt tr' => lawful tr' end.
Proof.
  intros c dirs p o tr G R Sb Hj Hk.
  assert (Reset : forall k, k <> CNew -> (match k with CDynamic => true | _ => false end) = is_dynamic p ->
    (k = CDisabled -> p_conf p = CDisabled \/ p_key p = c_own c) ->
    match (bind (peer_reset c (set_conf k p)) (fun p => ret (Some p))) o tr with
    | Go (Some p') _ tr' => gen c tr' /\ frame (p_id p) tr tr' /\ rep c tr' p' /\ stab c p' /\ p_id p' = p_id p /\ kk p' /\
        (p_key p' = p_key p /\ p_dir p' = p_dir p /\ (p_conf p <> CDisabled -> p_key p <> c_own c -> p_conf p' <> CDisabled))
    | Go None _ tr' => gen c tr' /\ frame (p_id p) tr tr' /\ closed_id (p_id p) tr'
    | Halt tr' => lawful tr' end).
  { intros k Hn Hd Hw. destruct (set_conf_ok c k p tr R Sb Hd) as (R' & Sb').
    unfold bind; generalize (peer_reset_ok c _ o tr G R' (stab_weak _ _ Sb') Hn).
    generalize (reset_kk c _ o tr G R' Sb' Hn).
    destruct (peer_reset c (set_conf k p) o tr) as [p' o' tr' | tr']; [| auto].
    intros (A1 & A2 & A3 & A4 & A5 & A6) (_ & _ & _ & _ & (B1 & B2 & B3 & B4 & B5) & _); cbn in *.
    split; [exact A1 | split; [exact A2 | split; [exact A3 | split; [exact A4 | split; [exact A5 | split; [exact A6 |]]]]]].
    split; [exact B2 | split; [exact B4 |]]. intros X1 X2 X3; rewrite B5 in X3; destruct (Hw X3); contradiction. }
  unfold configure_peer.
  destruct (p_conf p) eqn:Ec.
  - (* new *)
    assert (Hdy : is_dynamic p = false) by (unfold is_dynamic; rewrite Ec; reflexivity).
    destruct (N.eqb_spec (p_key p) (c_own c)) as [E | E].
    + cbn [is_disabled set_conf p_conf]. apply Reset; [discriminate | rewrite Hdy; reflexivity | right; exact E].
    + unfold is_disabled at 1; rewrite Ec. cbn [is_established set_conf p_st p_dir].
      destruct (negb _ && _) eqn:Eb.
      * apply Reset; [discriminate | rewrite Hdy; reflexivity | discriminate].
      * destruct (set_conf_ok c CStatic p tr R Sb) as (R' & Sb'); [rewrite Hdy; reflexivity |].
        cbn; split; [exact G | split; [apply frame_refl | split; [exact R' | split; [exact Sb' | split; [reflexivity | split]]]]].
        -- split; [discriminate |]. unfold is_enabled, is_inactive; cbn.
           unfold is_established in Eb; cbn in Eb.
           destruct (p_st p) eqn:Es; try reflexivity.
           cbn in Eb. apply orb_false_iff in Eb as [Eb1 Eb2]. apply negb_false_iff in Eb2.
           exfalso; exact (Hj Eb2 Eb1 E Es).
        -- repeat split; discriminate.
  - (* removed *)
    unfold bind; generalize (peer_delete_ok c p o tr G R); destruct (peer_delete c p o tr) as [u o1 tr1 | tr1]; [| intros []].
    intros (B1 & B2 & B3); cbn; split; [exact B1 | split; [exact B2 | exact B3]].
  - (* disabled *)
    assert (Hdy : is_dynamic p = false) by (unfold is_dynamic; rewrite Ec; reflexivity).
    assert (Ep : (if p_key p =? c_own c then set_conf CDisabled p else p) = set_conf CDisabled p).
    { destruct (_ =? _); [reflexivity |]. destruct p; cbn in Ec; subst; reflexivity. }
    rewrite Ep; cbn [is_disabled set_conf p_conf]. apply Reset; [discriminate | rewrite Hdy; reflexivity | left; reflexivity].
  - (* dynamic *)
    assert (Hdy : is_dynamic p = true) by (unfold is_dynamic; rewrite Ec; reflexivity).
    cbn; split; [exact G | split; [apply frame_refl | split; [exact R | split; [exact Sb | split; [reflexivity | split; [exact (Hk Hdy) |]]]]]].
    rewrite Ec; repeat split; discriminate.
Qed.

Lemma configure_peers_ok : forall c dirs l o tr, gen c tr -> NoDup (ids l) -> lw c tr l ->
  (dirs = true -> Forall (jj c) l) -> Forall (fun p => is_dynamic p = true -> kk p) l ->
  match configure_peers c dirs l o tr with
  | Go l' _ tr' => lpost c l tr l' tr' /\ Forall kk l' /\
      (Forall (fun p => p_conf p <> CDisabled) l -> Forall (jj c) l')
  | Halt tr' => lawful tr' end.
Proof.
  intros c dirs l; induction l as [| p r IH]; intros o tr G Nd L HJ HK.
  - cbn; split; [apply lpost_refl; assumption | split; constructor].
  - assert (Nd' : NoDup (ids r)) by (inversion Nd; assumption).
    inversion HK as [| x y Hk HK']; subst x y. inversion L as [| x y [R Sb] L']; subst x y.
    assert (HJ' : dirs = true -> Forall (jj c) r) by (intros E; specialize (HJ E); inversion HJ; assumption).
    assert (Hj : dirs = true -> jj c p) by (intros E; specialize (HJ E); inversion HJ; assumption).
    cbn [configure_peers]; unfold bind.
    generalize (IH o tr G Nd' L' HJ' HK'); destruct (configure_peers c dirs r o tr) as [r1 o1 tr1 | tr1]; [| exact (fun x => x)].
    intros (A1 & A2 & A2'). pose proof (tail_keep _ _ _ _ _ _ Nd L A1) as A3.
    pose proof A3 as (G1 & _ & L1 & N1 & _).
    assert (R1 : rep c tr1 p) by (inversion L1; tauto).
    generalize (configure_peer_ok c dirs p o1 tr1 G1 R1 Sb Hj Hk); destruct (configure_peer c dirs p o1 tr1) as [[p' |] o' tr' | tr']; [| | exact (fun x => x)].
    + intros (B1 & B2 & B3 & B4 & B5 & B6 & B7 & B8 & B9); cbn; split; [| split; [constructor; assumption |]].
      * apply (lpost_trans _ _ _ _ _ _ _ A3). apply head_keep; assumption.
      * intros HF; inversion HF as [| x y HF1 HF2]; subst. constructor; [| exact (A2' HF2)].
        intros X1 X2 X3. rewrite B7 in X2. specialize (B9 HF1 X2).
        destruct B6 as (Y1 & Y2). unfold is_enabled, is_inactive in Y2; rewrite X3 in Y2.
        cbn in Y2; destruct (p_conf p'); congruence.
    + intros (B1 & B2 & B3); cbn; split; [| split; [assumption |]].
      * apply (lpost_trans _ _ _ _ _ _ _ A3). apply head_drop; assumption.
      * intros HF; inversion HF; subst; auto.
Qed.
