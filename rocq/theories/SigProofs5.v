(** Every asynchronous child is waited for *)
From Coq Require Import Lia ZifyBool ZifyNat ZifyN.
From Verif Require Import Base SigModel SigSpec SigProofs SigProofs2 SigProofs3 SigProofs4.

Lemma frame_place : forall s s', frame s s' -> over s' = false -> s_pc s' = s_pc s.
Proof. intros s s' F O. apply (frame_over _ _ F O). Qed.

Lemma wait_kids : forall c order w s s', kids_ok s -> s_forked s = None -> wait_step c order w s = Some s' -> kids_ok s'.
Proof.
  intros c order w s s' K Fn H. unfold wait_step in H.
  assert (X : forall s2, s_kids s2 = s_kids s -> s_pids s2 = s_pids s -> s_forked s2 = s_forked s -> (s_trace s2 = s_trace s \/ s_trace s2 = TOpen :: s_trace s) -> kids_ok s2).
  { intros s2 E1 E2 E3 E4. apply (kids_same s); try assumption; [intros _ Y; congruence|]. destruct E4 as [E4|E4]; [left; exact E4|right; exists TOpen; split; [exact E4|exact I]]. }
  assert (Gt : forall p s2, s_kids (goto p s2) = s_kids s2 /\ s_pids (goto p s2) = s_pids s2 /\ s_forked (goto p s2) = s_forked s2) by (intros p s2; unfold goto; destruct (over s2); repeat split).
  assert (Fo : forall l p, kids_ok (goto p (set_mask init_mask (fold_left (deliver1 c) l s)))).
  { intros l p. pose proof (fold_frame c l s) as F. destruct (Gt p (set_mask init_mask (fold_left (deliver1 c) l s))) as (G1 & G2 & G3).
    apply X; [rewrite G1; apply F|rewrite G2; apply F|rewrite G3; apply F|left; rewrite goto_trace; apply F]. }
  destruct (c_epoll c).
  - destruct w as [| |async l|l].
    + destruct (s_pending s); [|discriminate]. injection H as <-. apply X; try reflexivity. left; reflexivity.
    + destruct (s_pending s) eqn:Es; [discriminate|]. destruct (deliver_all c order s) as [s1|] eqn:D; [|discriminate]. cbn [option_map] in H. injection H as <-.
      pose proof (deliver_all_trace _ _ _ _ D) as Tr. unfold deliver_all in D. destruct (same order (s_pending s)); [|discriminate]. injection D as <-.
      pose proof (fold_frame c order s) as F. destruct (Gt PSig1 (set_mask init_mask (say TOpen (fold_left (deliver1 c) order s)))) as (G1 & G2 & G3).
      apply X; [rewrite G1; apply F|rewrite G2; apply F|rewrite G3; apply F|right; rewrite goto_trace; exact Tr].
    + destruct (forallb _ l && _); [|discriminate]. injection H as <-. apply Fo.
    + destruct (forallb _ l); [|discriminate]. injection H as <-. apply Fo.
  - destruct w as [| |async l|l].
    + destruct (s_queue s =? 0)%nat; [|discriminate]. injection H as <-. apply X; try reflexivity. left; reflexivity.
    + injection H as <-. apply X; try reflexivity. left; reflexivity.
    + destruct (negb async || _); [|discriminate]. injection H as <-. apply X; try reflexivity. left; reflexivity.
    + injection H as <-. apply X; try reflexivity. left; reflexivity.
Qed.

Lemma next_kids : forall c order w s s', kids_ok s -> s_forked s = None -> next c order w s = Some s' -> kids_ok s'.
Proof.
  intros c order w s s' K Fn H. unfold next in H.
  assert (X : forall s2, s_kids s2 = s_kids s -> s_pids s2 = s_pids s -> s_forked s2 = s_forked s -> (s_trace s2 = s_trace s \/ exists x, s_trace s2 = x :: s_trace s /\ plain_event x) -> kids_ok s2).
  { intros s2 E1 E2 E3 E4. apply (kids_same s); try assumption. intros _ Y. congruence. }
  assert (X0 : forall s2, s_kids s2 = s_kids s -> s_pids s2 = s_pids s -> s_forked s2 = s_forked s -> s_trace s2 = s_trace s -> kids_ok s2).
  { intros s2 E1 E2 E3 E4. apply X; try assumption. left; exact E4. }
  assert (X1 : forall y s2, s_kids s2 = s_kids s -> s_pids s2 = s_pids s -> s_forked s2 = s_forked s -> s_trace s2 = y :: s_trace s -> plain_event y -> kids_ok s2).
  { intros y s2 E1 E2 E3 E4 E5. apply X; try assumption. right. exists y. split; assumption. }
  assert (Gt : forall p s2, s_kids (goto p s2) = s_kids s2 /\ s_pids (goto p s2) = s_pids s2 /\ s_forked (goto p s2) = s_forked s2) by (intros p s2; unfold goto; destruct (over s2); repeat split).
  assert (Da : forall p s1, deliver_all c order (set_mask no_mask s) = Some s1 -> kids_ok (goto p s1)).
  { intros p s1 D. pose proof (deliver_all_trace _ _ _ _ D) as Tr. unfold deliver_all in D. destruct (same order _); [|discriminate]. injection D as <-.
    pose proof (fold_frame c order (set_mask no_mask s)) as F. destruct (Gt p (say TOpen (fold_left (deliver1 c) order (set_mask no_mask s)))) as (G1 & G2 & G3).
    apply (X1 TOpen); [rewrite G1; apply F|rewrite G2; apply F|rewrite G3; apply F|rewrite goto_trace; exact Tr|exact I]. }
  destruct (s_pc s) eqn:Epc; try discriminate.
  - injection H as <-. apply X0; reflexivity.
  - destruct (s_term s); injection H as <-; [apply (X1 TCleanup)|apply (X1 TIter)]; try reflexivity; exact I.
  - injection H as <-. apply X0; reflexivity.
  - destruct (c_epoll c); [injection H as <-; apply X0; reflexivity|].
    destruct (deliver_all c order (set_mask no_mask s)) as [s1|] eqn:D; [|discriminate]. injection H as <-. apply Da. reflexivity.
  - injection H as <-. apply X0; reflexivity.
  - exact (wait_kids _ _ _ _ _ K Fn H).
  - assert (K' : kids_ok (set_pc PWait s)) by (apply X0; reflexivity). destruct w; try discriminate; exact (wait_kids _ _ _ _ _ K' Fn H).
  - injection H as <-. apply X0; reflexivity.
  - injection H as <-. destruct async; apply X0; reflexivity.
  - destruct (s_reload s); injection H as <-; [apply (X1 TReload); try reflexivity; exact I|apply X0; reflexivity].
  - injection H as <-. apply X0; reflexivity.
  - destruct (s_reset s); injection H as <-; [apply (X1 TReset); try reflexivity; exact I|apply X0; reflexivity].
  - injection H as <-. apply X0; reflexivity.
  - destruct (s_child s); injection H as <-; apply X0; reflexivity.
  - destruct (nth_error (s_pids s) i) as [pid|] eqn:Hn; [|injection H as <-; apply X0; reflexivity].
    destruct (find_kid pid (s_kids s)) as [k|] eqn:Hf.
    + destruct (k_ended k) eqn:He; injection H as <-; [exact (kids_reap _ _ _ _ K Fn Hn Hf He)|apply X0; reflexivity].
    + exfalso. apply nth_error_In in Hn. assert (Y : In pid (s_pids s ++ optl (s_forked s))) by (apply in_or_app; left; exact Hn).
      apply (k_iff _ K) in Y as [e Y]. exact (find_kid_none _ _ _ Hf Y eq_refl).
  - injection H as <-. apply X0; reflexivity.
  - destruct (s_term s); [|discriminate]. injection H as <-. apply X0; reflexivity.
  - destruct (deliver_all c order (set_mask no_mask s)) as [s1|] eqn:D; [|discriminate]. injection H as <-. apply Da. reflexivity.
  - destruct (s_term s) as [g|]; [|discriminate]. injection H as <-. pose proof (deliver_frame c g s) as F. destruct (Gt (PExit 255) (deliver c g s)) as (G1 & G2 & G3).
    apply X0; [rewrite G1; apply F|rewrite G2; apply F|rewrite G3; apply F|rewrite goto_trace; apply F].
Qed.

Lemma step_kids : forall c s e s', kids_ok s -> step c s e = Some s' -> kids_ok s'.
Proof.
  intros c s e s' K H. unfold step in H. destruct (over s) eqn:O; [discriminate|]. destruct e.
  - injection H as <-. apply kids_generate; [|exact O]. apply (kids_same s); try assumption; try reflexivity; [intros _ N; exact (k_place _ K O N)|].
    right. exists (TArrive g). split; [reflexivity|exact I].
  - destruct (find_kid pid (s_kids s)) as [k|] eqn:Hf; [|discriminate]. destruct (k_ended k) eqn:He; [discriminate|]. injection H as <-.
    apply kids_generate; [|exact O]. apply kids_ended; assumption.
  - destruct (known pid s) eqn:Kn; [discriminate|]. injection H as <-. apply kids_fork_sync; assumption.
  - destruct (find_kid pid (s_kids s)) as [[p [|] [|]]|] eqn:Hf; try discriminate. injection H as <-. apply find_kid_some in Hf as [I E]. cbn [k_pid] in E. subst p.
    apply kids_drop_sync; assumption.
  - injection H as <-. rewrite wake_eq. pose proof (enqueue_frame c (set_pc (wake (s_pc s)) s)) as F. destruct (enqueue_rest c (set_pc (wake (s_pc s)) s)) as (E1 & _).
    apply (kids_same s); [exact K|apply F|apply F|apply F| |left; apply F]. intros _ N. rewrite E1. cbn [s_pc set_pc]. rewrite runs_wake. exact (k_place _ K O N).
  - destruct (s_forked s) eqn:Fn; [discriminate|]. destruct (known pid s) eqn:Kn; [discriminate|]. destruct (runs_commands (s_pc s)) eqn:R; [|discriminate]. injection H as <-.
    apply kids_fork; assumption.
  - destruct (s_forked s) as [pid|] eqn:Fn; [|discriminate]. injection H as <-. destruct K as [K1 K2 K3 K4 K5 K6 K7 K8]. rewrite Fn in *. cbn [optl] in *.
    constructor; cbn [s_kids s_pids s_forked s_trace s_pc set_forked set_pids optl]; rewrite ?app_nil_r; try assumption. intros _ X. contradiction.
  - destruct (s_forked s) eqn:Fn; [discriminate|]. exact (next_kids _ _ _ _ _ K Fn H).
Qed.
Lemma run_kids : forall c s, run c s -> kids_ok s.
Proof.
  intros c s H. induction H as [|s e s' H IH E]; [|exact (step_kids c s e s' IH E)].
  constructor; cbn.
  - constructor.
  - constructor.
  - intros pid. split; [intros []|intros [e []]].
  - intros _ X. contradiction.
  - intros pid. split; [discriminate|intros []].
  - intros pid. split; [discriminate|intros []].
  - intros pid. exact I.
  - intros [].
Qed.

(** *** Waiting in time *)
Definition due (s : st) (pid : N) : Prop := s_child s = true \/ exists i, s_pc s = PReap i /\ In pid (skipn i (s_pids s)).
Record reap (s : st) : Prop := mk_reap {
  r_ended : forall pid, In (mk_kid pid true true) (s_kids s) -> In SIGCHLD (s_pending s) \/ due s pid;
  r_opened : forall pid, opened (TEnded pid true) (TReaped pid) (s_trace s) = true -> due s pid }.
Definition good_kids (t : list tev) : Prop := forall pid, good (TEnded pid true) (TReaped pid) t.

Lemma opened_since : forall A D t, opened A D t = true -> since A D t = true.
Proof.
  intros A D t. induction t as [|x t IH]; cbn [opened since]; [discriminate|]. destruct (tev_eq_dec x D); [discriminate|].
  destruct (tev_eq_dec x TOpen) as [->|].
  - intros H. destruct (tev_eq_dec TOpen A); [reflexivity|]. apply orb_prop in H as [H|H]; [exact H|exact (IH H)].
  - intros H. destruct (tev_eq_dec x A); [reflexivity|exact (IH H)].
Qed.
Lemma opened_kid : forall s pid, kids_ok s -> opened (TEnded pid true) (TReaped pid) (s_trace s) = true -> In (mk_kid pid true true) (s_kids s).
Proof. intros s pid K H. apply (k_two _ K), since_phase; [apply (k_order _ K)|apply opened_since; exact H]. Qed.

Lemma reap_same : forall s s', reap s -> s_kids s' = s_kids s -> s_pids s' = s_pids s -> (forall g, In g (s_pending s) -> In g (s_pending s')) ->
  (s_child s = true -> s_child s' = true) -> (forall i, s_pc s = PReap i -> s_pc s' = PReap i) ->
  (s_trace s' = s_trace s \/ exists x, s_trace s' = x :: s_trace s /\ x <> TOpen) -> reap s'.
Proof.
  intros s s' [R1 R2] E1 E2 E3 E4 E5 Tr.
  assert (D : forall pid, due s pid -> due s' pid).
  { intros pid [H|(i & H & Hi)]; [left; exact (E4 H)|right; exists i; split; [exact (E5 i H)|rewrite E2; exact Hi]]. }
  constructor.
  - intros pid H. rewrite E1 in H. destruct (R1 pid H) as [X|X]; [left; exact (E3 _ X)|right; exact (D _ X)].
  - intros pid H. destruct Tr as [Tr|(x & Tr & Nx)]; rewrite Tr in H; [exact (D _ (R2 pid H))|]. apply D, R2.
    destruct (tev_eq_dec x (TReaped pid)) as [->|N]; [rewrite opened_D in H; discriminate|]. rewrite opened_other in H by assumption. exact H.
Qed.
Lemma gen_child : forall c g s, plain s -> over (generate c g s) = false ->
  (forall h, In h (s_pending s) -> In h (s_pending (generate c g s))) /\ (s_child s = true -> s_child (generate c g s) = true) /\
  (g = SIGCHLD -> In SIGCHLD (s_pending (generate c g s)) \/ s_child (generate c g s) = true).
Proof.
  intros c g s P O. destruct (generate_view c g s P) as [D|l D H Hl|D H].
  - split; [tauto|]. split; [tauto|]. intros ->. discriminate.
  - cbn [s_pending set_pc set_pending s_child]. split; [intros h X; apply Hl; left; exact X|]. split; [tauto|]. intros ->. left. apply Hl. right. reflexivity.
  - destruct (deliver_noted c g (set_pc (wake (s_pc s)) s) P O) as [Nt Sp]. rewrite Sp. cbn [s_pending set_pc]. split; [tauto|].
    rewrite (n_child _ _ _ _ Nt). cbn [s_child set_pc]. split; [intros ->; reflexivity|]. intros ->. right. apply orb_true_r.
Qed.
Lemma gen_reap_pc : forall c g s i, over (generate c g s) = false -> s_pc s = PReap i -> s_pc (generate c g s) = PReap i.
Proof. intros c g s i O E. destruct (generate_kids c g s) as (_ & _ & _ & G). destruct (G O) as [-> | ->]; rewrite E; reflexivity. Qed.

(** After delivery of some or all pending signals *)
Lemma reap_delivered : forall c l s s1 s', reap s -> kids_ok s -> (forall i, s_pc s <> PReap i) -> frame s s1 -> noted c l s s1 ->
  (forall g, In g (s_pending s) -> In g (s_pending s1) \/ In g l) ->
  s_kids s' = s_kids s1 -> s_pids s' = s_pids s1 -> s_pending s' = s_pending s1 -> s_child s' = s_child s1 ->
  (s_trace s' = s_trace s1 \/ (s_trace s' = TOpen :: s_trace s1 /\ s_pending s1 = [])) -> reap s'.
Proof.
  intros c l s s1 s' [R1 R2] K Np Fr Nt Sub E1 E2 E3 E4 Tr.
  assert (C : forall pid, In SIGCHLD (s_pending s) \/ due s pid -> In SIGCHLD (s_pending s') \/ s_child s' = true).
  { intros pid [H|[H|(i & H & _)]]; [|right; rewrite E4, (n_child _ _ _ _ Nt), H; reflexivity|exfalso; exact (Np i H)].
    rewrite E3, E4. destruct (Sub _ H) as [X|X]; [left; exact X|right]. rewrite (n_child _ _ _ _ Nt). apply member_in in X. rewrite X. apply orb_true_r. }
  constructor.
  - intros pid H. rewrite E1, (f_kids _ _ Fr) in H. destruct (C pid (R1 pid H)) as [X|X]; [left; exact X|right; left; exact X].
  - intros pid H. left. destruct Tr as [Tr|[Tr Sp]].
    + rewrite Tr, (f_trace _ _ Fr) in H. destruct (R2 pid H) as [X|(i & X & _)]; [rewrite E4, (n_child _ _ _ _ Nt), X; reflexivity|exfalso; exact (Np i X)].
    + rewrite Tr, (f_trace _ _ Fr), opened_open in H by discriminate.
      assert (Y : In (mk_kid pid true true) (s_kids s)).
      { apply orb_prop in H as [H|H]; [apply (k_two _ K), since_phase; [apply (k_order _ K)|exact H]|exact (opened_kid s pid K H)]. }
      destruct (C pid (R1 pid Y)) as [X|X]; [|exact X]. rewrite E3, Sp in X. contradiction.
Qed.

Lemma wait_trace : forall c order w s s', wait_step c order w s = Some s' -> s_trace s' = s_trace s \/ s_trace s' = TOpen :: s_trace s.
Proof.
  intros c order w s s' H. unfold wait_step in H. destruct (c_epoll c).
  - destruct w as [| |async l|l].
    + destruct (s_pending s); [|discriminate]. injection H as <-. left; reflexivity.
    + destruct (s_pending s); [discriminate|]. destruct (deliver_all c order s) as [s1|] eqn:D; [|discriminate]. injection H as <-.
      right. rewrite goto_trace. exact (deliver_all_trace _ _ _ _ D).
    + destruct (forallb _ l && _); [|discriminate]. injection H as <-. left. rewrite goto_trace. apply (fold_frame c l s).
    + destruct (forallb _ l); [|discriminate]. injection H as <-. left. rewrite goto_trace. apply (fold_frame c l s).
  - destruct w as [| |async l|l].
    + destruct (s_queue s =? 0)%nat; [|discriminate]. injection H as <-. left; reflexivity.
    + injection H as <-. left; reflexivity.
    + destruct (negb async || _); [|discriminate]. injection H as <-. left; reflexivity.
    + injection H as <-. left; reflexivity.
Qed.
Lemma wait_reap : forall c order w s s', plain s -> kids_ok s -> reap s -> s_pc s = PWait -> wait_step c order w s = Some s' -> fin (s_pc s') = false -> reap s'.
Proof.
  intros c order w s s' P K R Epc H Ff. assert (Np : forall i, s_pc s <> PReap i) by (intros i; rewrite Epc; discriminate). unfold wait_step in H.
  assert (X : forall p, reap (set_pc p s)) by (intros p; apply (reap_same s); try assumption; try reflexivity; try tauto; intros i E; exfalso; exact (Np i E)).
  destruct (c_epoll c).
  - assert (Fo : forall l p, s' = goto p (set_mask init_mask (fold_left (deliver1 c) l s)) -> reap s').
    { intros l p ->. destruct (goto_fin _ _ Ff) as [O ->]. destruct (fold_noted c l s P O) as [Nt Sp].
      apply (reap_delivered c l s (fold_left (deliver1 c) l s)); try assumption; try reflexivity; [apply fold_frame| |left; reflexivity].
      intros g G. destruct (in_dec sig_eq_dec g l) as [Y|Y]; [right; exact Y|left; apply Sp; split; assumption]. }
    destruct w as [| |async l|l].
    + destruct (s_pending s); [|discriminate]. injection H as <-. apply X.
    + destruct (s_pending s) eqn:Es; [discriminate|]. destruct (deliver_all c order s) as [s1|] eqn:D; [|discriminate]. injection H as <-.
      destruct (deliver_all_view _ _ _ _ P D) as (s2 & -> & Fr & V). destruct (goto_fin _ _ Ff) as [O ->]. destruct (V O) as [Sp Nt].
      apply (reap_delivered c (s_pending s) s s2); try assumption; try reflexivity; [intros g G; right; exact G|right; split; [reflexivity|exact Sp]].
    + destruct (forallb _ l && _); [|discriminate]. injection H as <-. exact (Fo l _ eq_refl).
    + destruct (forallb _ l); [|discriminate]. injection H as <-. exact (Fo l _ eq_refl).
  - destruct w as [| |async l|l].
    + destruct (s_queue s =? 0)%nat; [|discriminate]. injection H as <-. apply X.
    + injection H as <-. apply X.
    + destruct (negb async || _); [|discriminate]. injection H as <-. apply X.
    + injection H as <-. apply X.
Qed.

Lemma skipn_delete : forall i (l : list N), skipn i (delete i l) = skipn (S i) l.
Proof.
  intros i. induction i as [|i IH]; intros [|x l]; try reflexivity. change (delete (S i) (x :: l)) with (x :: delete i l). cbn [skipn]. rewrite IH. reflexivity.
Qed.
Lemma skipn_nth : forall i (l : list N) p, nth_error l i = Some p -> skipn i l = p :: skipn (S i) l.
Proof. intros i. induction i as [|i IH]; intros [|x l] p H; try discriminate; cbn [nth_error] in H; [injection H as ->; reflexivity|]. exact (IH l p H). Qed.

Definition kid_state (s : st) : Prop := good_kids (s_trace s) /\ (fin (s_pc s) = false -> reap s).
Lemma good_cons : forall x t, good_kids t -> x <> TIter -> good_kids (x :: t).
Proof. intros x t G N pid. cbn [good]. split; [apply G|contradiction]. Qed.

Lemma next_reap : forall c order w s s', basic c s -> kids_ok s -> s_forked s = None -> kid_state s -> next c order w s = Some s' -> kid_state s'.
Proof.
  intros c order w s s' B K Fn [G R] H.
  assert (Sm : forall s2, fin (s_pc s) = false -> s_kids s2 = s_kids s -> s_pids s2 = s_pids s -> s_pending s2 = s_pending s -> s_child s2 = s_child s ->
    (forall i, s_pc s <> PReap i) -> s_trace s2 = s_trace s -> kid_state s2).
  { intros s2 F E1 E2 E3 E4 E5 E6. split; [rewrite E6; exact G|]. intros _. apply (reap_same s); try assumption; [exact (R F)|rewrite E3; tauto|rewrite E4; tauto| |left; exact E6].
    intros i E. exfalso. exact (E5 i E). }
  assert (Sy : forall x s2, fin (s_pc s) = false -> s_kids s2 = s_kids s -> s_pids s2 = s_pids s -> s_pending s2 = s_pending s -> s_child s2 = s_child s ->
    (forall i, s_pc s <> PReap i) -> s_trace s2 = x :: s_trace s -> x <> TOpen -> x <> TIter -> kid_state s2).
  { intros x s2 F E1 E2 E3 E4 E5 E6 X1 X2. split; [rewrite E6; apply good_cons; assumption|]. intros _.
    apply (reap_same s); try assumption; [exact (R F)|rewrite E3; tauto|rewrite E4; tauto|intros i E; exfalso; exact (E5 i E)|right; exists x; split; assumption]. }
  assert (Da : forall p s1, deliver_all c order (set_mask no_mask s) = Some s1 -> (fin p = false -> fin (s_pc s) = false) -> (forall i, s_pc s <> PReap i) -> kid_state (goto p s1)).
  { intros p s1 D Fp Np. split; [rewrite goto_trace, (deliver_all_trace _ _ _ _ D); apply good_cons; [exact G|discriminate]|]. intros Ff.
    assert (Fp' : fin p = false) by (destruct (goto_fin _ _ Ff) as [_ E]; rewrite E in Ff; exact Ff).
    specialize (Fp Fp'). destruct (deliver_all_view _ _ _ _ (l_plain _ _ (B Fp) : plain (set_mask no_mask s)) D) as (s2 & -> & Fr & V).
    destruct (goto_fin _ _ Ff) as [O ->]. destruct (V O) as [Sp Nt].
    apply (reap_delivered c (s_pending s) (set_mask no_mask s) s2); try assumption; try reflexivity.
    - apply (reap_same s); try reflexivity; try tauto; exact (R Fp).
    - apply (kids_same s); try reflexivity; [exact K|intros _ X; congruence|left; reflexivity].
    - intros g X. right. exact X.
    - right. split; [reflexivity|exact Sp]. }
  unfold next in H. destruct (s_pc s) eqn:Epc; try discriminate; cbn [fin] in *;
    try (assert (Np : forall i, s_pc s <> PReap i) by (intros i0; rewrite Epc; discriminate); rewrite Epc in Np).
  - injection H as <-. apply Sm; try reflexivity. exact Np.
  - destruct (s_term s); injection H as <-.
    + apply (Sy TCleanup); try reflexivity; [exact Np|discriminate|discriminate].
    + split.
      * intros pid. cbn [s_trace say set_pc good]. split; [apply G|]. intros _. destruct (opened (TEnded pid true) (TReaped pid) (s_trace s)) eqn:O; [|reflexivity].
        destruct (r_opened _ (R eq_refl) pid O) as [X|(i & X & _)]; [|congruence].
        assert (L : live c s) by (apply B; rewrite Epc; reflexivity). pose proof (l_flags _ _ L) as Fl. unfold flags in Fl. rewrite Epc in Fl. destruct Fl as (_ & _ & Fl). congruence.
      * intros _. apply (reap_same s); try reflexivity; try tauto; [intros i E; congruence|right; exists TIter; split; [reflexivity|discriminate]].
  - injection H as <-. apply Sm; try reflexivity. exact Np.
  - destruct (c_epoll c); [injection H as <-; apply Sm; try reflexivity; exact Np|].
    destruct (deliver_all c order (set_mask no_mask s)) as [s1|] eqn:D; [|discriminate]. injection H as <-. apply Da; [reflexivity|reflexivity|exact Np].
  - injection H as <-. apply Sm; try reflexivity. exact Np.
  - split; [destruct (wait_trace _ _ _ _ _ H) as [->| ->]; [exact G|apply good_cons; [exact G|discriminate]]|].
    apply (wait_reap c order w s); try assumption; [|exact (R eq_refl)]. apply (l_plain c). apply B. rewrite Epc. reflexivity.
  - assert (Pw : plain (set_pc PWait s)) by (apply (l_plain c s); apply B; rewrite Epc; reflexivity).
    assert (Kw : kids_ok (set_pc PWait s)) by (apply (kids_same s); try reflexivity; [exact K|intros _ X; congruence|left; reflexivity]).
    assert (Rw : reap (set_pc PWait s)) by (apply (reap_same s); try reflexivity; try tauto; intros i E; congruence).
    destruct w; try discriminate; (split; [destruct (wait_trace _ _ _ _ _ H) as [->| ->]; [exact G|apply good_cons; [exact G|discriminate]]|]; exact (wait_reap _ _ _ _ _ Pw Kw Rw eq_refl H)).
  - injection H as <-. apply Sm; try reflexivity. exact Np.
  - injection H as <-. destruct async; apply Sm; try reflexivity; exact Np.
  - destruct (s_reload s); injection H as <-; [apply (Sy TReload); try reflexivity; [exact Np|discriminate|discriminate]|apply Sm; try reflexivity; exact Np].
  - injection H as <-. apply Sm; try reflexivity. exact Np.
  - destruct (s_reset s); injection H as <-; [apply (Sy TReset); try reflexivity; [exact Np|discriminate|discriminate]|apply Sm; try reflexivity; exact Np].
  - injection H as <-. apply Sm; try reflexivity. exact Np.
  - specialize (R eq_refl). destruct (s_child s) eqn:Ec; injection H as <-.
    + split; [exact G|]. intros _. assert (Y : forall pid, In (mk_kid pid true true) (s_kids s) -> due (set_pc (PReap 0) (set_child false s)) pid).
      { intros pid X. right. exists 0%nat. split; [reflexivity|]. cbn [skipn s_pids set_pc set_child].
        assert (Z : In pid (s_pids s ++ optl (s_forked s))) by (apply (k_iff _ K); exists true; exact X). rewrite Fn in Z. cbn [optl] in Z. rewrite app_nil_r in Z. exact Z. }
      constructor; intros pid X; [right; exact (Y pid X)|apply Y; exact (opened_kid s pid K X)].
    + apply Sm; try reflexivity; [exact Ec|exact Np].
  - specialize (R eq_refl). assert (L : live c s) by (apply B; rewrite Epc; reflexivity). pose proof (l_flags _ _ L) as Fl. unfold flags in Fl. rewrite Epc in Fl. destruct Fl as (_ & _ & Fl).
    assert (Du : forall q, due s q -> In q (skipn i (s_pids s))) by (intros q [X|(j & E & X)]; [congruence|rewrite Epc in E; injection E as <-; exact X]).
    destruct (nth_error (s_pids s) i) as [pid|] eqn:Hn.
    + pose proof (skipn_nth _ _ _ Hn) as Sk. destruct (find_kid pid (s_kids s)) as [k|] eqn:Hf.
      * destruct (k_ended k) eqn:He; injection H as <-.
        -- split; [apply good_cons; [exact G|discriminate]|]. intros _.
           assert (Y : forall q, q <> pid -> due s q -> due (say (TReaped pid) (set_kids (drop_kid pid (s_kids s)) (set_pids (delete i (s_pids s)) s))) q).
           { intros q N X. apply Du in X. rewrite Sk in X. destruct X as [X|X]; [congruence|]. right. exists i. split; [exact Epc|]. cbn [s_pids say set_kids set_pids]. rewrite skipn_delete. exact X. }
           constructor; cbn [s_kids s_pending s_trace say set_kids set_pids].
           ++ intros q X. apply drop_kid_in in X as [X N]. cbn [k_pid] in N. destruct (r_ended _ R q X) as [Z|Z]; [left; exact Z|right; exact (Y q N Z)].
           ++ intros q X. destruct (N.eq_dec q pid) as [->|N]; [rewrite opened_D in X; discriminate|]. rewrite opened_other in X by congruence. exact (Y q N (r_opened _ R q X)).
        -- split; [exact G|]. intros _. apply find_kid_some in Hf as [Ik Ek].
           assert (Nq : forall q, In (mk_kid q true true) (s_kids s) -> q <> pid).
           { intros q X ->. pose proof (kid_unique _ _ _ (k_nodup _ K) Ik X Ek) as ->. discriminate. }
           assert (Y : forall q, q <> pid -> due s q -> due (set_pc (PReap (S i)) s) q).
           { intros q N X. apply Du in X. rewrite Sk in X. destruct X as [X|X]; [congruence|]. right. exists (S i). split; [reflexivity|exact X]. }
           constructor; intros q X.
           ++ destruct (r_ended _ R q X) as [Z|Z]; [left; exact Z|right; exact (Y q (Nq q X) Z)].
           ++ exact (Y q (Nq q (opened_kid s q K X)) (r_opened _ R q X)).
      * exfalso. apply nth_error_In in Hn. assert (Y : In pid (s_pids s ++ optl (s_forked s))) by (apply in_or_app; left; exact Hn).
        apply (k_iff _ K) in Y as [e Y]. exact (find_kid_none _ _ _ Hf Y eq_refl).
    + injection H as <-. split; [exact G|]. intros _. apply nth_error_None in Hn. assert (Ee : skipn i (s_pids s) = []) by (apply skipn_all2; exact Hn).
      constructor; intros q X.
      * destruct (r_ended _ R q X) as [Z|Z]; [left; exact Z|]. apply Du in Z. rewrite Ee in Z. contradiction.
      * apply (r_opened _ R) in X. apply Du in X. rewrite Ee in X. contradiction.
  - injection H as <-. apply Sm; try reflexivity. exact Np.
  - destruct (s_term s); [|discriminate]. injection H as <-. split; [exact G|discriminate].
  - destruct (deliver_all c order (set_mask no_mask s)) as [s1|] eqn:D; [|discriminate]. injection H as <-. apply Da; [reflexivity|discriminate|exact Np].
  - destruct (s_term s) as [g|]; [|discriminate]. injection H as <-. split; [rewrite goto_trace, (f_trace _ _ (deliver_frame c g s)); exact G|].
    intros Ff. destruct (goto_fin _ _ Ff) as [_ E]. rewrite E in Ff. discriminate.
Qed.

Lemma not_over : forall s, fin (s_pc s) = false -> over s = false.
Proof. intros s. unfold over. destruct (s_pc s); try discriminate; reflexivity. Qed.
Lemma step_reap : forall c s e s', basic c s -> kids_ok s -> kid_state s -> step c s e = Some s' -> kid_state s'.
Proof.
  intros c s e s' B K [G R] H. pose proof (step_fin c s e s') as Sf.
  assert (F : fin (s_pc s') = false -> fin (s_pc s) = false) by (intros F'; destruct (fin (s_pc s)) eqn:F; [specialize (Sf eq_refl H); congruence|reflexivity]).
  clear Sf. unfold step in H. destruct (over s) eqn:O; [discriminate|].
  destruct e.
  - injection H as <-. split; [rewrite generate_trace; apply good_cons; [exact G|discriminate]|]. intros F2. specialize (F F2). specialize (R F).
    pose proof (gen_child c g (say (TArrive g) s) (l_plain _ _ (B F)) (not_over _ F2)) as (G1 & G2 & _). destruct (generate_kids c g (say (TArrive g) s)) as (K1 & K2 & _ & _).
    apply (reap_same s); try assumption; [|right; exists (TArrive g); split; [apply generate_trace|discriminate]].
    intros i E. apply gen_reap_pc; [exact (not_over _ F2)|exact E].
  - destruct (find_kid pid (s_kids s)) as [k|] eqn:Hf; [|discriminate]. destruct (k_ended k) eqn:He; [discriminate|]. injection H as <-.
    split; [rewrite generate_trace; apply good_cons; [exact G|discriminate]|]. intros F2. specialize (F F2). specialize (R F).
    set (s1 := say (TEnded pid (k_async k)) (set_kids (end_kid pid (s_kids s)) s)) in *.
    pose proof (gen_child c SIGCHLD s1 (l_plain _ _ (B F)) (not_over _ F2)) as (G1 & G2 & G3). destruct (generate_kids c SIGCHLD s1) as (K1 & K2 & _ & _).
    assert (D : forall q, due s q -> due (generate c SIGCHLD s1) q).
    { intros q [X|(i & X & Y)]; [left; exact (G2 X)|right; exists i]. split; [apply gen_reap_pc; [exact (not_over _ F2)|exact X]|rewrite K2; exact Y]. }
    constructor.
    + intros q X. destruct (G3 eq_refl) as [Z|Z]; [left; exact Z|right; left; exact Z].
    + intros q X. rewrite generate_trace in X. apply D, (r_opened _ R). unfold s1 in X. cbn [s_trace say set_kids] in X.
      rewrite opened_other in X by discriminate. exact X.
  - destruct (known pid s) eqn:Kn; [discriminate|]. injection H as <-. split; [exact G|]. intros F2. specialize (R (F F2)). destruct R as [R1 R2]. constructor.
    + intros q [X|X]; [discriminate|exact (R1 q X)].
    + exact R2.
  - destruct (find_kid pid (s_kids s)) as [[p [|] [|]]|] eqn:Hf; try discriminate. injection H as <-. split; [exact G|]. intros F2. specialize (R (F F2)). destruct R as [R1 R2]. constructor.
    + intros q X. apply drop_kid_in in X as [X _]. exact (R1 q X).
    + exact R2.
  - injection H as <-. rewrite wake_eq in *. pose proof (enqueue_frame c (set_pc (wake (s_pc s)) s)) as Fr. destruct (enqueue_rest c (set_pc (wake (s_pc s)) s)) as (E1 & E2 & _ & _ & E5 & _).
    split; [rewrite (f_trace _ _ Fr); exact G|]. intros F2. apply (reap_same s); [exact (R (F F2))|apply Fr|apply Fr|rewrite E2; tauto|rewrite E5; tauto| |left; apply Fr].
    intros i E. rewrite E1. cbn [s_pc set_pc]. rewrite E. reflexivity.
  - destruct (s_forked s) eqn:Fn; [discriminate|]. destruct (known pid s) eqn:Kn; [discriminate|]. destruct (runs_commands (s_pc s)) eqn:Rc; [|discriminate]. injection H as <-.
    split; [apply good_cons; [exact G|discriminate]|]. intros F2. specialize (R (F F2)). destruct R as [R1 R2]. constructor.
    + intros q [X|X]; [discriminate|exact (R1 q X)].
    + intros q X. cbn [s_trace say set_forked set_kids] in X. rewrite opened_other in X by discriminate. exact (R2 q X).
  - destruct (s_forked s) as [pid|] eqn:Fn; [|discriminate]. injection H as <-. split; [exact G|]. intros F2. specialize (R (F F2)). destruct R as [R1 R2].
    assert (D : forall q, due s q -> due (set_forked None (set_pids (s_pids s ++ [pid]) s)) q).
    { intros q [X|(i & X & Y)]; [left; exact X|right; exists i; split; [exact X|]]. cbn [s_pids set_forked set_pids]. rewrite skipn_app. apply in_or_app. left. exact Y. }
    constructor; intros q X; [destruct (R1 q X) as [Z|Z]; [left; exact Z|right; exact (D q Z)]|exact (D q (R2 q X))].
  - destruct (s_forked s) eqn:Fn; [discriminate|]. exact (next_reap _ _ _ _ _ B K Fn (conj G R) H).
Qed.
Lemma run_reap : forall c s, run c s -> kid_state s.
Proof.
  intros c s H. induction H as [|s e s' H IH E]; [|exact (step_reap c s e s' (run_basic c s H) (run_kids c s H) IH E)].
  split; [intros pid; exact I|]. intros _. constructor; intros pid; [intros []|discriminate].
Qed.
