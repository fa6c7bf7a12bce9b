(** Proofs for LifeProps.v: counting, and the statements themselves *)
From Coq Require Import List NArith Bool Lia.
From Verif Require Import LifeModel LifeSpec LifeProofs LifeProofs2 LifeProofs3.
Import ListNotations.
Local Open Scope N_scope.

Lemma owner_eqb_spec : forall a b, reflect (a = b) (owner_eqb a b).
Proof.
  intros [| p | p] [| q | q]; cbn; try (constructor; discriminate); try (constructor; reflexivity).
  all: destruct (N.eqb_spec p q); constructor; congruence.
Qed.

Definition b2n (b : bool) : nat := if b then 1%nat else 0%nat.
Lemma count_cons : forall e x r, count e (x :: r) = (b2n (event_eqb e x) + count e r)%nat.
Proof. intros e x r; unfold count; cbn; destruct (event_eqb e x); reflexivity. Qed.

(** How often the events about an interface have happened *)
Lemma count_stage : forall o tr, lawful tr ->
  match stage_of o tr with
  | Closed => count (EOpen o) tr = count (EUp o) tr /\ count (EUp o) tr = count (EDown o) tr /\ count (EDown o) tr = count (EClose o) tr
  | Opened => count (EOpen o) tr = S (count (EUp o) tr) /\ count (EUp o) tr = count (EDown o) tr /\ count (EDown o) tr = count (EClose o) tr
  | Running => count (EOpen o) tr = count (EUp o) tr /\ count (EUp o) tr = S (count (EDown o) tr) /\ count (EDown o) tr = count (EClose o) tr
  | Stopped => count (EOpen o) tr = count (EUp o) tr /\ count (EUp o) tr = count (EDown o) tr /\ count (EDown o) tr = S (count (EClose o) tr)
  end.
Proof.
  intros o tr; induction tr as [| e r IH]; intros L; [cbn; repeat split |].
  destruct L as ((_ & L) & L'); specialize (IH L').
  rewrite !count_cons.
  destruct e as [| x | x | | p | p | x | x |]; cbn [stage_of event_eqb b2n]; try exact IH;
    (destruct (owner_eqb_spec o x) as [<- | Hn]; [| exact IH]); cbn [b2n plus].
  - destruct L as (_ & E & _); rewrite E in IH. lia.
  - destruct L as (_ & E); rewrite E in IH. lia.
  - destruct L as (E & _); rewrite E in IH. lia.
  - rewrite L in IH. lia.
Qed.
Lemma count_connected : forall p tr, lawful tr ->
  count (EEst p) tr = (b2n (connected p tr) + count (EDis p) tr)%nat.
Proof.
  intros p tr; induction tr as [| e r IH]; intros L; [reflexivity |].
  destruct L as ((_ & L) & L'); specialize (IH L').
  rewrite !count_cons.
  destruct e as [| x | x | | q | q | x | x |]; cbn [connected event_eqb b2n plus]; try exact IH;
    (destruct (N.eqb_spec p q) as [<- | Hn]; [| exact IH]); cbn [b2n plus].
  - destruct L as (E & _); rewrite E in IH; cbn in IH. lia.
  - rewrite L in IH; cbn in IH. lia.
Qed.

Lemma lawful_all : forall c static dirs ops o, lawful (trace (main c static dirs ops o [])).
Proof.
  intros c static dirs ops o; generalize (main_ok c static dirs ops o).
  destruct (main c static dirs ops o []) as [u o' tr | tr]; [intros (H & _); exact H | exact (fun x => x)].
Qed.
Lemma lawful_running : forall c static dirs ops o, lawful (trace (running c static dirs ops o [])).
Proof.
  intros c static dirs ops o; generalize (running_ok c static dirs ops o).
  destruct (running c static dirs ops o []) as [u o' tr | tr]; [intros ((_ & G & _) & _); exact (proj1 G) | exact (fun x => x)].
Qed.

Lemma ends_clean : forall c static dirs ops o u o' tr, main c static dirs ops o [] = Go u o' tr ->
  (exists r, tr = EPostDown :: r /\ quiet r) /\
  (forall x, count (EOpen x) tr = count (EClose x) tr /\ count (EUp x) tr = count (EOpen x) tr /\ count (EDown x) tr = count (EOpen x) tr) /\
  (forall p, count (EEst p) tr = count (EDis p) tr).
Proof.
  intros c static dirs ops o u o' tr E; generalize (main_ok c static dirs ops o); rewrite E.
  intros (L & r & ->). pose proof L as ((_ & _ & Q) & L'). pose proof Q as (Q1 & Q2).
  split; [exists r; split; [reflexivity | exact Q] | split].
  - intros x. pose proof (count_stage x _ L) as H. cbn [stage_of] in H; rewrite (Q1 x) in H. lia.
  - intros p. pose proof (count_connected p _ L) as H. cbn [connected] in H; rewrite (Q2 p) in H. exact H.
Qed.

Lemma present : forall c static dirs ops o w o' tr, running c static dirs ops o [] = Go w o' tr ->
  stage_of Main tr = (if c_shared c then Running else Closed) /\
  (forall p, In p (w_peers w) ->
    connected (p_id p) tr = is_established p /\
    (is_established p = true -> is_enabled p = true /\ carried (p_id p) tr) /\
    (is_enabled p = false \/ c_shared c = true -> stage_of (Own (p_id p)) tr = Closed /\ stage_of (Offload (p_id p)) tr = Closed) /\
    (c_shared c = false -> c_persist c = false \/ is_dynamic p = true -> is_established p = false ->
       stage_of (Own (p_id p)) tr = Closed /\ stage_of (Offload (p_id p)) tr = Closed) /\
    (c_shared c = false -> c_persist c = true -> is_enabled p = true -> is_dynamic p = false ->
       stage_of (Own (p_id p)) tr = Running \/ p_dir p = true /\ is_established p = false)) /\
  (forall id, ~ In id (map p_id (w_peers w)) ->
    stage_of (Own id) tr = Closed /\ stage_of (Offload id) tr = Closed /\ connected id tr = false).
Proof.
  intros c static dirs ops o w o' tr E; generalize (running_ok c static dirs ops o); rewrite E.
  intros ((K & G & Nd & L & B & C) & HK). split; [exact (proj2 (proj2 (proj2 (proj2 G)))) | split; [| exact C]].
  intros p Hp. destruct (proj1 (Forall_forall _ _) L p Hp) as (R & Sb). destruct (proj1 (Forall_forall _ _) HK p Hp) as (K1 & K2).
  pose proof (rep_shared _ _ _ G R) as Sm.
  destruct R as (R1 & R2 & R3 & R4 & R5), Sb as (S1 & S2 & S3 & S4 & S5 & S6).
  unfold has_private, is_established, is_inactive in *.
  split; [exact R4 | split; [| split; [| split]]].
  - intros Es. destruct (p_st p) eqn:Est; try discriminate. cbn in K2. split; [exact K2 |].
    unfold carried. destruct (p_if p) eqn:Ei.
    + destruct (p_off p); [right; right; exact R2 | destruct (S6 eq_refl) as [X | X]; congruence].
    + left; exact (Sm eq_refl).
    + right; left; exact R1.
  - intros [En | En].
    + rewrite En in K2. destruct (p_st p) eqn:Est; try discriminate. destruct (S1 eq_refl) as (X & Y); rewrite X in R1; rewrite Y in R2; split; assumption.
    + destruct (S2 En) as (X & Y & _). rewrite Y in R2. destruct (p_if p); try congruence; split; assumption.
  - intros Sh Hx Es.
    assert (Eo : p_off p = None).
    { destruct (p_off p); [| reflexivity]. destruct (S3 ltac:(discriminate)) as (_ & X); rewrite X in Es; discriminate. }
    rewrite Eo in R2. destruct (p_if p) eqn:Ei; try (split; assumption).
    destruct (S4 eq_refl) as [(X & Y) | X]; [destruct Hx; congruence | rewrite X in Es; discriminate].
  - intros Sh Pe En Dy. rewrite En in K2.
    assert (Hi : p_st p <> Inactive) by (intros X; rewrite X in K2; discriminate).
    destruct (S5 Pe Sh Hi Dy) as [X | X]; [rewrite X in R1; left; exact R1 |].
    destruct (p_st p) eqn:Est; [right; split; [exact X | reflexivity] | right; split; [exact X | reflexivity] |].
    left. destruct (S6 eq_refl) as [Y | Y].
    + destruct (p_if p) eqn:Ei; [congruence | specialize (R5 eq_refl); congruence | exact R1].
    + exfalso. destruct (S3 Y) as (Z & _). destruct (K Z) as (_ & Z'). congruence.
Qed.
