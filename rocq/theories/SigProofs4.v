(** Asynchronous children *)
From Coq Require Import Lia ZifyBool ZifyNat ZifyN.
From Verif Require Import Base SigModel SigSpec SigProofs SigProofs2 SigProofs3.

(** What the trace says about a pid: 1 running, 2 ended, 0 unknown *)
Fixpoint phase (pid : N) (t : list tev) : nat :=
  match t with
  | [] => 0
  | x :: t => if tev_eq_dec x (TForked pid) then 1 else if tev_eq_dec x (TEnded pid true) then 2 else if tev_eq_dec x (TReaped pid) then 0 else phase pid t
  end.
Fixpoint ordered (pid : N) (t : list tev) : Prop :=
  match t with
  | [] => True
  | x :: t => ordered pid t /\ (x = TForked pid -> phase pid t = 0%nat) /\ (x = TEnded pid true -> phase pid t = 1%nat) /\ (x = TReaped pid -> phase pid t = 2%nat)
  end.
Lemma phase_other : forall pid x t, x <> TForked pid -> x <> TEnded pid true -> x <> TReaped pid -> phase pid (x :: t) = phase pid t.
Proof.
  intros pid x t A B D. cbn [phase]. destruct (tev_eq_dec x (TForked pid)); [contradiction|]. destruct (tev_eq_dec x (TEnded pid true)); [contradiction|].
  destruct (tev_eq_dec x (TReaped pid)); [contradiction|reflexivity].
Qed.
Lemma phase_self : forall pid t, phase pid (TForked pid :: t) = 1%nat /\ phase pid (TEnded pid true :: t) = 2%nat /\ phase pid (TReaped pid :: t) = 0%nat.
Proof.
  intros pid t. cbn [phase]. repeat match goal with |- context [tev_eq_dec ?a ?b] => destruct (tev_eq_dec a b); try congruence end. repeat split.
Qed.
Lemma ordered_other : forall pid x t, x <> TForked pid -> x <> TEnded pid true -> x <> TReaped pid -> ordered pid t -> ordered pid (x :: t).
Proof. intros pid x t A B D O. cbn [ordered]. split; [exact O|]. repeat split; contradiction. Qed.

Lemma phase1_split : forall pid t, ordered pid t -> phase pid t = 1%nat -> exists y z, t = y ++ TForked pid :: z /\ ~ In (TReaped pid) y.
Proof.
  intros pid t. induction t as [|x t IH]; [discriminate|]. intros (O & A & B & D) P. cbn [phase] in P.
  destruct (tev_eq_dec x (TForked pid)) as [->|]; [exists [], t; split; [reflexivity|intros []]|].
  destruct (tev_eq_dec x (TEnded pid true)); [discriminate|]. destruct (tev_eq_dec x (TReaped pid)); [discriminate|].
  destruct (IH O P) as (y & z & -> & H). exists (x :: y), z. split; [reflexivity|]. intros [X|X]; [congruence|exact (H X)].
Qed.
Lemma phase2_split : forall pid t, ordered pid t -> phase pid t = 2%nat ->
  exists x y z, t = x ++ TEnded pid true :: y ++ TForked pid :: z /\ ~ In (TReaped pid) (x ++ y).
Proof.
  intros pid t. induction t as [|w t IH]; [discriminate|]. intros (O & A & B & D) P. cbn [phase] in P.
  destruct (tev_eq_dec w (TForked pid)); [discriminate|].
  destruct (tev_eq_dec w (TEnded pid true)) as [->|].
  - destruct (phase1_split pid t O (B eq_refl)) as (y & z & -> & H). exists [], y, z. split; [reflexivity|exact H].
  - destruct (tev_eq_dec w (TReaped pid)); [discriminate|]. destruct (IH O P) as (x & y & z & -> & H). exists (w :: x), y, z. split; [reflexivity|].
    intros [X|X]; [congruence|exact (H X)].
Qed.
Lemma since_phase : forall pid t, ordered pid t -> since (TEnded pid true) (TReaped pid) t = true -> phase pid t = 2%nat.
Proof.
  intros pid t. induction t as [|x t IH]; [discriminate|]. intros (O & A & B & D) P. cbn [since] in P. cbn [phase].
  destruct (tev_eq_dec x (TReaped pid)); [discriminate|].
  destruct (tev_eq_dec x (TEnded pid true)) as [->|]; [destruct (tev_eq_dec (TEnded pid true) (TForked pid)); [discriminate|reflexivity]|].
  destruct (tev_eq_dec x (TForked pid)) as [E|]; [|exact (IH O P)]. specialize (IH O P). specialize (A E). congruence.
Qed.

Definition optl (o : option N) : list N := match o with Some p => [p] | None => [] end.
Record kids_ok (s : st) : Prop := mk_kids_ok {
  k_nodup : NoDup (map k_pid (s_kids s));
  k_pids : NoDup (s_pids s ++ optl (s_forked s));
  k_iff : forall pid, In pid (s_pids s ++ optl (s_forked s)) <-> exists e, In (mk_kid pid true e) (s_kids s);
  k_place : over s = false -> s_forked s <> None -> runs_commands (s_pc s) = true;
  k_two : forall pid, phase pid (s_trace s) = 2%nat <-> In (mk_kid pid true true) (s_kids s);
  k_one : forall pid, phase pid (s_trace s) = 1%nat <-> In (mk_kid pid true false) (s_kids s);
  k_order : forall pid, ordered pid (s_trace s);
  k_fine : ~ In TWaitError (s_trace s) }.

Lemma kid_unique : forall l a b, NoDup (map k_pid l) -> In a l -> In b l -> k_pid a = k_pid b -> a = b.
Proof.
  intros l a b. induction l as [|k l IH]; cbn [map In]; intros N Ha Hb E; [contradiction|]. inversion N as [|? ? N1 N2]; subst.
  destruct Ha as [->|Ha], Hb as [->|Hb]; [reflexivity| | |exact (IH N2 Ha Hb E)].
  - exfalso. apply N1. rewrite E. apply in_map. exact Hb.
  - exfalso. apply N1. rewrite <- E. apply in_map. exact Ha.
Qed.
Lemma find_kid_some : forall pid l k, find_kid pid l = Some k -> In k l /\ k_pid k = pid.
Proof. intros pid l k H. unfold find_kid in H. apply find_some in H as [I E]. apply N.eqb_eq in E. split; assumption. Qed.
Lemma find_kid_none : forall pid l k, find_kid pid l = None -> In k l -> k_pid k <> pid.
Proof. intros pid l k H I E. unfold find_kid in H. pose proof (find_none _ _ H k I) as X. apply N.eqb_neq in X. contradiction. Qed.
Lemma known_false : forall pid s, known pid s = false -> forall k, In k (s_kids s) -> k_pid k <> pid.
Proof.
  intros pid s H k I E. unfold known in H. assert (X : existsb (fun k => N.eqb (k_pid k) pid) (s_kids s) = true) by (apply existsb_exists; exists k; split; [exact I|apply N.eqb_eq; exact E]).
  congruence.
Qed.
Lemma end_kid_in : forall pid l q a e, In (mk_kid q a e) (end_kid pid l) <-> (q <> pid /\ In (mk_kid q a e) l) \/ (q = pid /\ e = true /\ exists e', In (mk_kid pid a e') l).
Proof.
  intros pid l q a e. unfold end_kid. rewrite in_map_iff. split.
  - intros ([q0 a0 e0] & E & I). cbn [k_pid k_async] in E. destruct (N.eqb_spec q0 pid) as [->|N].
    + injection E as <- <- <-. right. repeat split. exists e0. exact I.
    + injection E as <- <- <-. left. split; assumption.
  - intros [[N I]|(-> & -> & e' & I)].
    + exists (mk_kid q a e). split; [|exact I]. cbn [k_pid]. apply N.eqb_neq in N. rewrite N. reflexivity.
    + exists (mk_kid pid a e'). split; [|exact I]. cbn [k_pid]. rewrite N.eqb_refl. reflexivity.
Qed.
Lemma end_kid_pids : forall pid l, map k_pid (end_kid pid l) = map k_pid l.
Proof.
  intros pid l. unfold end_kid. rewrite map_map. apply map_ext. intros k. destruct (N.eqb_spec (k_pid k) pid); [symmetry; assumption|reflexivity].
Qed.
Lemma drop_kid_in : forall pid l k, In k (drop_kid pid l) <-> In k l /\ k_pid k <> pid.
Proof. intros pid l k. unfold drop_kid. rewrite filter_In, Bool.negb_true_iff, N.eqb_neq. reflexivity. Qed.
Lemma drop_kid_nodup : forall pid l, NoDup (map k_pid l) -> NoDup (map k_pid (drop_kid pid l)).
Proof.
  intros pid l. induction l as [|k l IH]; cbn [drop_kid filter map]; intros H; [constructor|]. inversion H as [|? ? N1 N2]; subst.
  destruct (negb (N.eqb (k_pid k) pid)); [|exact (IH N2)]. cbn [map]. constructor; [|exact (IH N2)].
  intros X. apply in_map_iff in X as (k' & E & I). apply drop_kid_in in I as [I _]. apply N1. rewrite <- E. apply in_map. exact I.
Qed.

Definition plain_event (x : tev) : Prop := match x with TForked _ | TEnded _ true | TReaped _ | TWaitError => False | _ => True end.
Lemma kids_same : forall s s', kids_ok s -> s_kids s' = s_kids s -> s_pids s' = s_pids s -> s_forked s' = s_forked s ->
  (over s' = false -> s_forked s <> None -> runs_commands (s_pc s') = true) ->
  (s_trace s' = s_trace s \/ exists x, s_trace s' = x :: s_trace s /\ plain_event x) -> kids_ok s'.
Proof.
  intros s s' [K1 K2 K3 K4 K5 K6 K7 K8] E1 E2 E3 Pl Tr.
  assert (T : (forall pid, phase pid (s_trace s') = phase pid (s_trace s)) /\ (forall pid, ordered pid (s_trace s')) /\ ~ In TWaitError (s_trace s')).
  { destruct Tr as [->|(x & -> & Px)]; [split; [reflexivity|split; assumption]|].
    assert (X : forall pid, x <> TForked pid /\ x <> TEnded pid true /\ x <> TReaped pid) by (intros pid; destruct x; repeat split; try discriminate; cbn in Px; try contradiction; intros E; injection E as -> ->; contradiction).
    split; [|split].
    - intros pid. apply phase_other; apply X.
    - intros pid. apply ordered_other; [apply X|apply X|apply X|apply K7].
    - intros [->|H]; [contradiction|exact (K8 H)]. }
  destruct T as (T1 & T2 & T3). constructor; rewrite ?E1, ?E2, ?E3; try assumption.
  - intros pid. rewrite T1. apply K5.
  - intros pid. rewrite T1. apply K6.
Qed.

Lemma generate_kids : forall c g s, s_kids (generate c g s) = s_kids s /\ s_pids (generate c g s) = s_pids s /\ s_forked (generate c g s) = s_forked s /\
  (over (generate c g s) = false -> s_pc (generate c g s) = wake (s_pc s) \/ s_pc (generate c g s) = s_pc s).
Proof.
  intros c g s. assert (D : forall s, s_kids (deliver c g s) = s_kids s /\ s_pids (deliver c g s) = s_pids s /\ s_forked (deliver c g s) = s_forked s /\ (over (deliver c g s) = false -> s_pc (deliver c g s) = s_pc s)).
  { intros s0. pose proof (deliver_frame c g s0) as F. split; [apply F|]. split; [apply F|]. split; [apply F|]. intros O. apply (frame_over _ _ F O). }
  unfold generate. destruct (s_disp s g); try (repeat split; right; reflexivity);
    (destruct (s_mask s g || _); cbv zeta; rewrite wake_eq;
     [destruct (member g (s_pending s)); repeat split; left; reflexivity
     | destruct (D (set_pc (wake (s_pc s)) s)) as (D1 & D2 & D3 & D4); rewrite D1, D2, D3; repeat split; intros O; left; exact (D4 O)]).
Qed.
Lemma runs_wake : forall p, runs_commands (wake p) = runs_commands p.
Proof. intros p. destruct p; reflexivity. Qed.
Lemma kids_generate : forall c g s, kids_ok s -> over s = false -> kids_ok (generate c g s).
Proof.
  intros c g s K O. destruct (generate_kids c g s) as (G1 & G2 & G3 & G4). apply (kids_same s); try assumption; [|left; apply generate_trace].
  intros Og N. destruct (G4 Og) as [-> | ->]; rewrite ?runs_wake; apply (k_place _ K O N).
Qed.

Lemma kids_ended : forall s pid k, kids_ok s -> over s = false -> find_kid pid (s_kids s) = Some k -> k_ended k = false ->
  kids_ok (say (TEnded pid (k_async k)) (set_kids (end_kid pid (s_kids s)) s)).
Proof.
  intros s pid [p a e] K O Hf He. apply find_kid_some in Hf as [I Ep]. cbn [k_pid k_ended k_async] in *. subst p e.
  destruct K as [K1 K2 K3 K4 K5 K6 K7 K8].
  assert (U : forall a' e', In (mk_kid pid a' e') (s_kids s) -> a' = a /\ e' = false).
  { intros a' e' X. pose proof (kid_unique _ _ _ K1 X I eq_refl) as Y. injection Y as -> ->. split; reflexivity. }
  constructor; cbn [s_kids s_pids s_forked s_trace s_pc say set_kids].
  - rewrite end_kid_pids. exact K1.
  - exact K2.
  - intros q. rewrite K3. split.
    + intros [e X]. destruct (N.eq_dec q pid) as [->|N].
      * exists true. apply end_kid_in. right. repeat split. exists e. exact X.
      * exists e. apply end_kid_in. left. split; assumption.
    + intros [e X]. apply end_kid_in in X as [[_ X]|(-> & _ & e' & X)]; eauto.
  - exact K4.
  - intros q. rewrite end_kid_in. destruct a.
    + destruct (N.eq_dec q pid) as [->|N].
      * destruct (phase_self pid (s_trace s)) as (_ & -> & _). split; [|reflexivity]. intros _. right. repeat split. exists false. exact I.
      * rewrite phase_other by congruence. rewrite K5. split; [left; split; assumption|]. intros [[_ X]|(X & _)]; [exact X|contradiction].
    + rewrite phase_other by congruence. rewrite K5. split.
      * intros X. left. split; [|exact X]. intros ->. destruct (U _ _ X). discriminate.
      * intros [[_ X]|(-> & _ & e' & X)]; [exact X|]. destruct (U _ _ X). discriminate.
  - intros q. rewrite end_kid_in. destruct a.
    + destruct (N.eq_dec q pid) as [->|N].
      * destruct (phase_self pid (s_trace s)) as (_ & -> & _). split; [discriminate|]. intros [[X _]|(_ & X & _)]; [contradiction|discriminate].
      * rewrite phase_other by congruence. rewrite K6. split; [left; split; assumption|]. intros [[_ X]|(X & _)]; [exact X|contradiction].
    + rewrite phase_other by congruence. rewrite K6. split.
      * intros X. left. split; [|exact X]. intros ->. destruct (U _ _ X). discriminate.
      * intros [[_ X]|(_ & X & _)]; [exact X|discriminate].
  - intros q. cbn [ordered]. split; [apply K7|]. split; [discriminate|]. split; [|discriminate]. intros E. injection E as <- ->. apply K6. exact I.
  - intros [X|X]; [discriminate|exact (K8 X)].
Qed.
Lemma kids_drop_sync : forall s pid, kids_ok s -> In (mk_kid pid false true) (s_kids s) -> kids_ok (set_kids (drop_kid pid (s_kids s)) s).
Proof.
  intros s pid [K1 K2 K3 K4 K5 K6 K7 K8] I.
  assert (U : forall e, ~ In (mk_kid pid true e) (s_kids s)) by (intros e X; pose proof (kid_unique _ _ _ K1 X I eq_refl) as Y; discriminate).
  assert (D : forall q e, In (mk_kid q true e) (drop_kid pid (s_kids s)) <-> In (mk_kid q true e) (s_kids s)).
  { intros q e. rewrite drop_kid_in. split; [tauto|]. intros X. split; [exact X|]. cbn [k_pid]. intros ->. exact (U _ X). }
  constructor; cbn [s_kids s_pids s_forked s_trace s_pc set_kids]; try assumption.
  - apply drop_kid_nodup. exact K1.
  - intros q. rewrite K3. split; intros [e X]; exists e; apply D; exact X.
  - intros q. rewrite K5, D. reflexivity.
  - intros q. rewrite K6, D. reflexivity.
Qed.
Lemma kids_fork : forall s pid, kids_ok s -> s_forked s = None -> known pid s = false -> runs_commands (s_pc s) = true ->
  kids_ok (say (TForked pid) (set_forked (Some pid) (set_kids (mk_kid pid true false :: s_kids s) s))).
Proof.
  intros s pid K Fn Kn R. pose proof (known_false _ _ Kn) as U. destruct K as [K1 K2 K3 K4 K5 K6 K7 K8]. rewrite Fn in *. cbn [optl] in *. rewrite app_nil_r in *.
  assert (Np : ~ In pid (s_pids s)) by (intros X; apply K3 in X as [e X]; exact (U _ X eq_refl)).
  assert (P0 : phase pid (s_trace s) = 0%nat).
  { destruct (phase pid (s_trace s)) as [|[|[|n]]] eqn:E; [reflexivity| | |].
    - apply K6 in E. exfalso. exact (U _ E eq_refl).
    - apply K5 in E. exfalso. exact (U _ E eq_refl).
    - exfalso. clear -E. induction (s_trace s) as [|x t IH]; cbn [phase] in E; [discriminate|]. destruct (tev_eq_dec x (TForked pid)); [discriminate|].
      destruct (tev_eq_dec x (TEnded pid true)); [discriminate|]. destruct (tev_eq_dec x (TReaped pid)); [discriminate|]. exact (IH E). }
  constructor; cbn [s_kids s_pids s_forked s_trace s_pc say set_kids set_forked optl].
  - cbn [map k_pid]. constructor; [|exact K1]. intros X. apply in_map_iff in X as (k & E & I). exact (U _ I E).
  - apply NoDup_rev in K2. rewrite <- (rev_involutive (s_pids s ++ [pid])), rev_app_distr. apply NoDup_rev. cbn [rev app]. constructor; [|exact K2].
    rewrite <- in_rev. exact Np.
  - intros q. rewrite in_app_iff, K3. cbn [In]. split.
    + intros [[e X]|[<-|[]]]; [exists e; right; exact X|exists false; left; reflexivity].
    + intros [e [X|X]]; [injection X as <- <-; right; left; reflexivity|left; exists e; exact X].
  - intros _ _. exact R.
  - intros q. cbn [In]. destruct (N.eq_dec q pid) as [->|N].
    + destruct (phase_self pid (s_trace s)) as (-> & _ & _). split; [discriminate|]. intros [X|X]; [discriminate|]. exfalso. exact (U _ X eq_refl).
    + rewrite phase_other by congruence. rewrite K5. split; [right; assumption|]. intros [X|X]; [discriminate|exact X].
  - intros q. cbn [In]. destruct (N.eq_dec q pid) as [->|N].
    + destruct (phase_self pid (s_trace s)) as (-> & _ & _). split; [left; reflexivity|reflexivity].
    + rewrite phase_other by congruence. rewrite K6. split; [right; assumption|]. intros [X|X]; [congruence|exact X].
  - intros q. cbn [ordered]. split; [apply K7|]. split; [|split; discriminate]. intros E. injection E as <-. exact P0.
  - intros [X|X]; [discriminate|exact (K8 X)].
Qed.
Lemma kids_fork_sync : forall s pid, kids_ok s -> known pid s = false -> kids_ok (set_kids (mk_kid pid false false :: s_kids s) s).
Proof.
  intros s pid K Kn. pose proof (known_false _ _ Kn) as U. destruct K as [K1 K2 K3 K4 K5 K6 K7 K8].
  constructor; cbn [s_kids s_pids s_forked s_trace s_pc set_kids]; try assumption.
  - cbn [map k_pid]. constructor; [|exact K1]. intros X. apply in_map_iff in X as (k & E & I). exact (U _ I E).
  - intros q. rewrite K3. cbn [In]. split; intros [e X]; exists e; [right; exact X|destruct X as [X|X]; [discriminate|exact X]].
  - intros q. rewrite K5. cbn [In]. split; [right; assumption|]. intros [X|X]; [discriminate|exact X].
  - intros q. rewrite K6. cbn [In]. split; [right; assumption|]. intros [X|X]; [discriminate|exact X].
Qed.

Lemma delete_split : forall (i : nat) (l : list N) p, nth_error l i = Some p -> l = firstn i l ++ p :: skipn (S i) l /\ delete i l = firstn i l ++ skipn (S i) l.
Proof.
  intros i. induction i as [|i IH]; intros [|x l] p H; try discriminate; cbn [nth_error] in H.
  - injection H as ->. split; reflexivity.
  - destruct (IH l p H) as [A _]. split; [|reflexivity]. change (x :: l = x :: (firstn i l ++ p :: skipn (S i) l)). f_equal. exact A.
Qed.
Lemma kids_reap : forall s i pid k, kids_ok s -> s_forked s = None -> nth_error (s_pids s) i = Some pid -> find_kid pid (s_kids s) = Some k -> k_ended k = true ->
  kids_ok (say (TReaped pid) (set_kids (drop_kid pid (s_kids s)) (set_pids (delete i (s_pids s)) s))).
Proof.
  intros s i pid k K Fn Hn Hf He. destruct K as [K1 K2 K3 K4 K5 K6 K7 K8]. rewrite Fn in *. cbn [optl] in *. rewrite app_nil_r in *.
  destruct (delete_split i _ _ Hn) as [S1 S2]. apply find_kid_some in Hf as [Ik Epk].
  assert (Ip : In pid (s_pids s)) by (rewrite S1; apply in_or_app; right; left; reflexivity).
  assert (Ka : k = mk_kid pid true true).
  { apply K3 in Ip as [e X]. pose proof (kid_unique _ _ _ K1 Ik X Epk) as ->. cbn [k_ended] in He. subst e. reflexivity. }
  subst k.
  assert (Nd : NoDup (firstn i (s_pids s) ++ skipn (S i) (s_pids s)) /\ ~ In pid (firstn i (s_pids s) ++ skipn (S i) (s_pids s))).
  { rewrite S1 in K2. split; [exact (NoDup_remove_1 _ _ _ K2)|exact (NoDup_remove_2 _ _ _ K2)]. }
  destruct Nd as [Nd1 Nd2].
  assert (Dl : forall q, In q (firstn i (s_pids s) ++ skipn (S i) (s_pids s)) <-> In q (s_pids s) /\ q <> pid).
  { intros q. split.
    - intros X. split; [|intros ->; exact (Nd2 X)]. rewrite S1. apply in_app_iff in X. apply in_app_iff. destruct X as [X|X]; [left; exact X|right; right; exact X].
    - intros [X N]. rewrite S1 in X. apply in_app_iff in X. apply in_app_iff. destruct X as [X|[X|X]]; [left; exact X|congruence|right; exact X]. }
  assert (P2 : phase pid (s_trace s) = 2%nat) by (apply K5; exact Ik).
  constructor; cbn [s_kids s_pids s_forked s_trace s_pc say set_kids set_pids]; rewrite ?Fn; cbn [optl]; rewrite ?app_nil_r, ?S2.
  - apply drop_kid_nodup. exact K1.
  - exact Nd1.
  - intros q. rewrite Dl, K3. split.
    + intros [[e X] N]. exists e. apply drop_kid_in. split; [exact X|exact N].
    + intros [e X]. apply drop_kid_in in X as [X N]. split; [exists e; exact X|exact N].
  - intros _ X. congruence.
  - intros q. rewrite drop_kid_in. cbn [k_pid]. destruct (N.eq_dec q pid) as [->|N].
    + destruct (phase_self pid (s_trace s)) as (_ & _ & ->). split; [discriminate|]. intros [_ X]. contradiction.
    + rewrite phase_other by congruence. rewrite K5. tauto.
  - intros q. rewrite drop_kid_in. cbn [k_pid]. destruct (N.eq_dec q pid) as [->|N].
    + destruct (phase_self pid (s_trace s)) as (_ & _ & ->). split; [discriminate|]. intros [_ X]. contradiction.
    + rewrite phase_other by congruence. rewrite K6. tauto.
  - intros q. cbn [ordered]. split; [apply K7|]. split; [discriminate|]. split; [discriminate|]. intros E. injection E as <-. exact P2.
  - intros [X|X]; [discriminate|exact (K8 X)].
Qed.
