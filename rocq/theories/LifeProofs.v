(** Proofs for LifeProps.v: one peer *)
From Coq Require Import List NArith Bool Lia.
From Verif Require Import LifeModel LifeSpec.
Import ListNotations.
Local Open Scope N_scope.

(** While the process runs *)
Definition gen (c : config) (tr : list event) : Prop :=
  lawful tr /\ In EPreUp tr /\ In EReady tr /\ ~ In EPostDown tr /\
  stage_of Main tr = (if c_shared c then Running else Closed).

(** What the trace says about a peer *)
Definition rep (c : config) (tr : list event) (p : peer) : Prop :=
  stage_of (Own (p_id p)) tr = (if has_private p then Running else Closed) /\
  stage_of (Offload (p_id p)) tr = (match p_off p with Some _ => Running | None => Closed end) /\
  (p_off p <> None -> p_if p = NoIf) /\
  connected (p_id p) tr = is_established p /\
  (p_if p = Shared -> c_shared c = true).

(** Nothing is said about other peers *)
Definition frame (id : N) (tr tr' : list event) : Prop :=
  forall q, q <> id ->
    stage_of (Own q) tr' = stage_of (Own q) tr /\
    stage_of (Offload q) tr' = stage_of (Offload q) tr /\
    connected q tr' = connected q tr.

Lemma frame_refl : forall id tr, frame id tr tr.
Proof. intros id tr q _; repeat split. Qed.
Lemma frame_trans : forall id a b d, frame id a b -> frame id b d -> frame id a d.
Proof.
  intros id a b d H1 H2 q Hq; destruct (H1 q Hq) as (A1 & A2 & A3); destruct (H2 q Hq) as (B1 & B2 & B3).
  rewrite B1, B2, B3; repeat split; assumption.
Qed.

(** Events about a peer *)
Lemma gen_open_own : forall c tr id, gen c tr -> stage_of (Own id) tr = Closed -> stage_of (Offload id) tr = Closed ->
  gen c (EOpen (Own id) :: tr).
Proof.
  intros c tr id (L & I1 & I2 & I3 & Sm) H1 H2; split; [| split; [right; exact I1 | split; [right; exact I2 | split]]].
  - split; [| exact L]. split; [exact I3 |]. split; [exact I1 | split; [exact H1 |]]. intros o' [<- | []]; exact H2.
  - intros [Hx | Hx]; [discriminate | exact (I3 Hx)].
  - exact Sm.
Qed.
Lemma gen_open_off : forall c tr id, gen c tr -> stage_of (Own id) tr = Closed -> stage_of (Offload id) tr = Closed ->
  gen c (EOpen (Offload id) :: tr).
Proof.
  intros c tr id (L & I1 & I2 & I3 & Sm) H1 H2; split; [| split; [right; exact I1 | split; [right; exact I2 | split]]].
  - split; [| exact L]. split; [exact I3 |]. split; [exact I1 | split; [exact H2 |]]. intros o' [<- | []]; exact H1.
  - intros [Hx | Hx]; [discriminate | exact (I3 Hx)].
  - exact Sm.
Qed.
Lemma gen_up : forall c tr o, gen c tr -> o <> Main -> stage_of o tr = Opened -> gen c (EUp o :: tr).
Proof.
  intros c tr o (L & I1 & I2 & I3 & Sm) Hm H1; split; [| split; [right; exact I1 | split; [right; exact I2 | split]]].
  - split; [| exact L]. split; [exact I3 |]. split; [exact I2 | exact H1].
  - intros [Hx | Hx]; [discriminate | exact (I3 Hx)].
  - destruct o; [congruence | exact Sm | exact Sm].
Qed.
Lemma gen_down : forall c tr o, gen c tr -> o <> Main -> stage_of o tr = Running -> gen c (EDown o :: tr).
Proof.
  intros c tr o (L & I1 & I2 & I3 & Sm) Hm H1; split; [| split; [right; exact I1 | split; [right; exact I2 | split]]].
  - split; [| exact L]. split; [exact I3 |]. split; [exact H1 | intros ->; congruence].
  - intros [Hx | Hx]; [discriminate | exact (I3 Hx)].
  - destruct o; [congruence | exact Sm | exact Sm].
Qed.
Lemma gen_close : forall c tr o, gen c tr -> o <> Main -> stage_of o tr = Stopped -> gen c (EClose o :: tr).
Proof.
  intros c tr o (L & I1 & I2 & I3 & Sm) Hm H1; split; [| split; [right; exact I1 | split; [right; exact I2 | split]]].
  - split; [| exact L]. split; [exact I3 | exact H1].
  - intros [Hx | Hx]; [discriminate | exact (I3 Hx)].
  - destruct o; [congruence | exact Sm | exact Sm].
Qed.
Lemma gen_est : forall c tr p, gen c tr -> connected p tr = false -> carried p tr -> gen c (EEst p :: tr).
Proof.
  intros c tr p (L & I1 & I2 & I3 & Sm) H1 H2; split; [| split; [right; exact I1 | split; [right; exact I2 | split]]].
  - split; [| exact L]. split; [exact I3 | split; assumption].
  - intros [Hx | Hx]; [discriminate | exact (I3 Hx)].
  - exact Sm.
Qed.
Lemma gen_dis : forall c tr p, gen c tr -> connected p tr = true -> gen c (EDis p :: tr).
Proof.
  intros c tr p (L & I1 & I2 & I3 & Sm) H1; split; [| split; [right; exact I1 | split; [right; exact I2 | split]]].
  - split; [| exact L]. split; [exact I3 | exact H1].
  - intros [Hx | Hx]; [discriminate | exact (I3 Hx)].
  - exact Sm.
Qed.

Ltac eqbs :=
  repeat match goal with
  | H : ?a <> ?b |- context [?a =? ?b] => replace (a =? b) with false by (symmetry; apply N.eqb_neq; exact H)
  | |- context [?a =? ?a] => rewrite (N.eqb_refl a)
  end.
Ltac st := cbn; eqbs; first [ assumption | congruence | reflexivity ].
(** Goals [gen c (e :: ... :: tr)] *)
Ltac gens :=
  repeat first
    [ assumption
    | apply gen_open_own; [ | st | st ] | apply gen_open_off; [ | st | st ]
    | apply gen_up; [ | discriminate | st ] | apply gen_down; [ | discriminate | st ]
    | apply gen_close; [ | discriminate | st ]
    | apply gen_est; [ | st | unfold carried; first [ left; st | right; left; st | right; right; st ] ]
    | apply gen_dis; [ | st ] ].
Ltac frames := intros q Hq; cbn; eqbs; repeat split; reflexivity.
Ltac reps := unfold rep, has_private, is_established; cbn; eqbs; repeat split; intros; try assumption; try congruence; try discriminate; auto;
  try (left; discriminate); try (right; discriminate).

(** The main interface while a peer uses it *)
Lemma rep_shared : forall c tr p, gen c tr -> rep c tr p -> p_if p = Shared -> stage_of Main tr = Running.
Proof. intros c tr p (_ & _ & _ & _ & Sm) (_ & _ & _ & _ & Rh) E; rewrite Sm, (Rh E); reflexivity. Qed.

(** [reset_peer] *)
Lemma reset_peer_ok : forall c p o tr, gen c tr -> rep c tr p ->
  match reset_peer c p o tr with
  | Go p' _ tr' => gen c tr' /\ frame (p_id p) tr tr' /\ rep c tr' p' /\
      p' = set_off None (set_st Inactive (set_if (if negb (c_persist c) || is_disabled p || is_dynamic p then NoIf else p_if p) p))
  | Halt _ => False
  end.
Proof.
  intros c [id key cfg dir conf st ifc off] o tr G R.
  pose proof (rep_shared _ _ _ G R) as Sm.
  destruct R as (Ro & Rf & Re & Rc & Rh).
  unfold reset_peer, bind, when, emit, ret, has_private, is_established in *; cbn in *.
  destruct st, off as [k |], ifc; cbn in *;
    try (specialize (Re ltac:(discriminate)); discriminate);
    try specialize (Sm eq_refl);
    unfold is_disabled, is_dynamic, set_off, set_st, set_if in *; cbn in *;
    (destruct (negb _ || _ || _); cbn);
    (split; [gens | split; [frames | split; [reps | reflexivity]]]).
Qed.

(** Pure facts about a peer that is not being worked on *)
Definition cok (c : config) : Prop := c_offload c = true -> c_shared c = false /\ c_persist c = false.
Definition stab (c : config) (p : peer) : Prop :=
  (p_st p = Inactive -> p_if p = NoIf /\ p_off p = None) /\
  (c_shared c = true -> p_if p <> Private /\ p_off p = None /\ (p_st p <> Inactive -> p_if p = Shared)) /\
  (p_off p <> None -> c_offload c = true /\ p_st p = Established) /\
  (p_if p = Private -> (c_persist c = true /\ is_dynamic p = false) \/ p_st p = Established) /\
  (c_persist c = true -> c_shared c = false -> p_st p <> Inactive -> is_dynamic p = false -> p_if p = Private \/ p_dir p = true) /\
  (p_st p = Established -> p_if p <> NoIf \/ p_off p <> None).
(** Enough to reset a peer *)
Definition weak (c : config) (p : peer) : Prop :=
  (p_st p = Inactive -> p_if p = NoIf /\ p_off p = None) /\ (c_shared c = true -> p_if p <> Private).
Lemma stab_weak : forall c p, stab c p -> weak c p.
Proof. intros c p (A & B & _); split; [exact A | intros E; exact (proj1 (B E))]. Qed.

(** What never changes *)
Definition same (p p' : peer) : Prop :=
  p_id p' = p_id p /\ p_key p' = p_key p /\ p_cfg p' = p_cfg p /\ p_dir p' = p_dir p /\ p_conf p' = p_conf p.

Lemma peer_reset_ok : forall c p o tr, gen c tr -> rep c tr p -> weak c p -> p_conf p <> CNew ->
  match peer_reset c p o tr with
  | Go p' _ tr' => gen c tr' /\ frame (p_id p) tr tr' /\ rep c tr' p' /\ stab c p' /\ same p p' /\
      p_st p' = (if is_enabled p then Active else Inactive)
  | Halt tr' => lawful tr'
  end.
Proof.
  intros c p o tr G R St Hn.
  unfold peer_reset.
  assert (HR : match (if is_inactive p then ret p else reset_peer c p) o tr with
               | Go p' _ tr' => gen c tr' /\ frame (p_id p) tr tr' /\ rep c tr' p' /\ same p p' /\
                   p_st p' = Inactive /\ p_off p' = None /\ (p_if p' = Private -> c_persist c = true /\ c_shared c = false /\ is_enabled p = true /\ is_dynamic p = false) /\
                   (is_enabled p = false -> p_if p' = NoIf)
               | Halt _ => False
               end).
  { destruct (is_inactive p) eqn:Ei.
    - cbn. split; [exact G | split; [apply frame_refl | split; [exact R | split; [repeat split |]]]].
      unfold is_inactive in Ei; destruct (p_st p) eqn:Es; try discriminate.
      destruct St as (S1 & _); destruct (S1 Es) as (A & B).
      split; [reflexivity | split; [exact B | split; [congruence | intros _; exact A]]].
    - generalize (reset_peer_ok c p o tr G R); destruct (reset_peer c p o tr) as [p' o' tr' | tr']; [| intros []].
      intros (A & B & C & E); split; [exact A | split; [exact B | split; [exact C |]]].
      subst p'; split; [destruct p; repeat split |].
      split; [reflexivity | split; [reflexivity |]].
      destruct St as (S1 & S2); clear C.
      destruct p as [id key cfg dir conf st ifc off], c as [shared persist offl own];
        unfold is_disabled, is_dynamic, is_enabled in *; cbn in *.
      destruct persist, conf, shared; cbn; try congruence; split; try congruence; intros; auto;
        try (exfalso; specialize (S2 eq_refl); congruence). }
  unfold bind at 1.
  destruct ((if is_inactive p then ret p else reset_peer c p) o tr) as [p1 o1 tr1 | tr1]; [| destruct HR].
  destruct HR as (G1 & F1 & R1 & Sa & Es & Eo & Hp & Hd).
  destruct Sa as (A1 & A2 & A3 & A4 & A5).
  assert (Ht : forall tr', frame (p_id p1) tr1 tr' -> frame (p_id p) tr tr') by
    (intros tr' F; rewrite A1 in F; exact (frame_trans _ _ _ _ F1 F)).
  assert (Sa' : forall p', same p1 p' -> same p p') by
    (intros p' (X1 & X2 & X3 & X4 & X5); repeat split; congruence).
  assert (En : is_enabled p1 = is_enabled p) by (unfold is_enabled; rewrite A5; reflexivity).
  assert (Dy : is_dynamic p1 = is_dynamic p) by (unfold is_dynamic; rewrite A5; reflexivity).
  rewrite <- A5 in Hn. rewrite <- En, <- Dy in *. clear R G St F1 A1 A2 A3 A4 A5 En Dy.
  destruct p1 as [id key cfg dir conf st ifc off]; cbn in Es, Eo, Ht; subst st off.
  destruct R1 as (Ro & Rf & Re & Rc & Rh).
  unfold setup_peer, iface_open, bind, when, emit, ret, ask, exit1, has_none, has_private, is_established in *; cbn in *.
  assert (Lw : lawful tr1) by (exact (proj1 G1)).
  destruct (is_enabled _) eqn:En; cbn.
  2: { split; [exact G1 | split; [apply Ht, frame_refl |]]. rewrite (Hd eq_refl) in *; split; [reps |].
       split; [| split; [apply Sa'; repeat split | reflexivity]].
       unfold stab; cbn; repeat split; intros; try congruence; try discriminate. }
  destruct (c_shared c) eqn:Esh; cbn.
  { split; [exact G1 | split; [apply Ht, frame_refl |]].
    destruct ifc; [| | destruct (Hp eq_refl) as (_ & Y & _); congruence].
    all: split; [reps |]; split; [| split; [apply Sa'; repeat split | reflexivity]];
      unfold stab; cbn; repeat split; intros; try congruence; try discriminate. }
  destruct ifc; [| specialize (Rh eq_refl); congruence |].
  - destruct (c_persist c) eqn:Ep, (is_dynamic _) eqn:Ed; cbn;
      [| destruct o1 as [| [|] o1]; cbn; [| | destruct dir; cbn; [| exact Lw]] | |].
    all: (split; [gens | split; [apply Ht; first [ apply frame_refl | frames ] |]]);
      (split; [reps |]); split; [| split; [apply Sa'; repeat split | reflexivity]];
      unfold stab; cbn; repeat split; intros; try congruence; try discriminate; auto.
    all: unfold is_dynamic in *; cbn in *; congruence.
  - destruct (Hp eq_refl) as (Y1 & Y2 & Y3 & Y4); rewrite Y1, Y4; cbn.
    (split; [gens | split; [apply Ht, frame_refl |]]);
      (split; [reps |]); split; [| split; [apply Sa'; repeat split | reflexivity]];
      unfold stab; cbn; repeat split; intros; try congruence; try discriminate; auto.
Qed.

Lemma peer_delete_ok : forall c p o tr, gen c tr -> rep c tr p ->
  match peer_delete c p o tr with
  | Go _ _ tr' => gen c tr' /\ frame (p_id p) tr tr' /\
      stage_of (Own (p_id p)) tr' = Closed /\ stage_of (Offload (p_id p)) tr' = Closed /\ connected (p_id p) tr' = false
  | Halt _ => False
  end.
Proof.
  intros c p o tr G R. unfold peer_delete, bind at 1.
  generalize (reset_peer_ok c p o tr G R); destruct (reset_peer c p o tr) as [p' o' tr' | tr']; [| intros []].
  intros (G1 & F1 & R1 & E).
  assert (Ei : p_id p' = p_id p) by (subst p'; reflexivity).
  assert (Es : p_st p' = Inactive) by (subst p'; reflexivity).
  assert (Eo : p_off p' = None) by (subst p'; reflexivity).
  clear E. destruct R1 as (Ro & Rf & _ & Rc & _). rewrite Ei, Eo in *.
  unfold delete_peer, has_private, is_established, when, bind, emit, ret in *; rewrite Es, ?Ei in *.
  destruct (p_if p'); cbn.
  1, 2: split; [exact G1 | split; [exact F1 | repeat split; assumption]].
  split; [gens | split; [| repeat split; st]].
  apply (frame_trans _ _ _ _ F1); frames.
Qed.

Lemma establish_ok : forall c off p o tr, cok c -> gen c tr -> rep c tr p -> stab c p -> (is_enabled p = true -> p_st p <> Inactive) ->
  match establish c off p o tr with
  | Go p' _ tr' => gen c tr' /\ frame (p_id p) tr tr' /\ rep c tr' p' /\ stab c p' /\ same p p' /\
      (is_enabled p = true -> p_st p' <> Inactive) /\ (is_enabled p = false -> p' = p)
  | Halt tr' => lawful tr'
  end.
Proof.
  intros c off p o tr CK G R St Hi.
  unfold establish. destruct (is_enabled p) eqn:En.
  2: { cbn; split; [exact G | split; [apply frame_refl | split; [exact R | split; [exact St | split; [repeat split | split; [discriminate | reflexivity]]]]]]. }
  specialize (Hi eq_refl). unfold bind at 1.
  assert (H : match set_established p (if c_offload c then off else None) o tr with
              | Go r _ tr' => gen c tr' /\ frame (p_id p) tr tr' /\ rep c tr' (fst r) /\ same p (fst r) /\
                  weak c (fst r) /\ (snd r = true -> stab c (fst r) /\ p_st (fst r) = Established)
              | Halt tr' => False
              end).
  { pose proof (rep_shared _ _ _ G R) as Sm.
    destruct R as (Ro & Rf & Re & Rc & Rh).
    destruct St as (S1 & S2 & S3 & S4 & S5 & S6).
    destruct p as [id key cfg dir conf st ifc of], c as [shared persist offl own].
    unfold cok in CK.
    unfold set_established, iface_open, bind, when, emit, ret, ask, has_none, has_private, is_established in *; cbn in *.
    destruct offl; [destruct (CK eq_refl) as (-> & ->) | clear CK].
    - destruct st; [congruence | |]; destruct of as [k |], ifc, off as [k' |]; cbn in *;
        try (specialize (Re ltac:(discriminate)); discriminate);
        try (specialize (Rh eq_refl); discriminate);
        try (destruct (S6 eq_refl) as [Hx | Hx]; congruence);
        try (destruct (S3 ltac:(discriminate)); discriminate);
        try (destruct (S4 eq_refl) as [[Hx _] | Hx]; discriminate).
      all: repeat (match goal with
        | |- context [match ?x with [] => _ | _ :: _ => _ end] => is_var x; destruct x as [| [|] ?x]
        | |- context [if ?a =? ?b then _ else _] => destruct (a =? b) eqn:?Ek
        end; cbn).
      all: (split; [gens | split; [first [ apply frame_refl | frames ] |]]);
        (split; [reps |]); split; [repeat split |]; split; [unfold weak; cbn; repeat split; intros; try congruence; try discriminate |].
      all: try (intros Hx; discriminate Hx).
      all: intros _; split; [| reflexivity]; unfold stab; cbn; repeat split; intros; try congruence; try discriminate; auto.
      all: try (left; discriminate); try (right; discriminate).
    - destruct of as [k |]; [destruct (S3 ltac:(discriminate)); discriminate |].
      destruct st; [congruence | |]; destruct ifc; cbn in *;
        try (destruct (S6 eq_refl) as [Hx | Hx]; congruence).
      all: repeat (match goal with
        | |- context [match ?x with [] => _ | _ :: _ => _ end] => is_var x; destruct x as [| [|] ?x]
        end; cbn).
      all: (destruct shared; [destruct (S2 eq_refl) as (T1 & T2 & T3); specialize (T3 ltac:(discriminate)); try congruence |]).
      all: try (specialize (Rh eq_refl); discriminate).
      all: try (specialize (Sm eq_refl)).
      all: (split; [gens | split; [first [ apply frame_refl | frames ] |]]);
        (split; [reps |]); split; [repeat split |]; split; [unfold weak; cbn; repeat split; intros; try congruence; try discriminate |].
      all: try (intros Hx; discriminate Hx).
      all: intros _; split; [| reflexivity]; unfold stab; cbn; repeat split; intros; try congruence; try discriminate; auto.
      all: try (left; discriminate); try (right; discriminate). }
  destruct (set_established p (if c_offload c then off else None) o tr) as [r o1 tr1 | tr1]; [| destruct H].
  destruct H as (G1 & F1 & R1 & Sa & Wk & Hs).
  destruct (snd r) eqn:Er.
  - destruct (Hs eq_refl) as (Sb & Es). cbn.
    split; [exact G1 | split; [exact F1 | split; [exact R1 | split; [exact Sb | split; [exact Sa | split; [congruence | discriminate]]]]]].
  - assert (Hc : p_conf (fst r) <> CNew) by
      (destruct Sa as (_ & _ & _ & _ & ->); unfold is_enabled in En; destruct (p_conf p); congruence).
    generalize (peer_reset_ok c (fst r) o1 tr1 G1 R1 Wk Hc).
    destruct (peer_reset c (fst r) o1 tr1) as [p2 o2 tr2 | tr2]; [| exact (fun L => L)].
    intros (G2 & F2 & R2 & Sb & Sc & Es).
    destruct Sa as (A1 & A2 & A3 & A4 & A5), Sc as (B1 & B2 & B3 & B4 & B5).
    assert (En' : is_enabled (fst r) = true) by (unfold is_enabled in *; rewrite A5; exact En).
    rewrite A1 in F2.
    split; [exact G2 | split; [exact (frame_trans _ _ _ _ F1 F2) | split; [exact R2 | split; [exact Sb | split; [repeat split; congruence | split; [| discriminate]]]]]].
    rewrite Es, En'; discriminate.
Qed.
