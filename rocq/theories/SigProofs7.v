(** Termination in time, and the statements *)
From Coq Require Import Lia ZifyBool ZifyNat ZifyN.
From Verif Require Import Base SigModel SigSpec SigProofs SigProofs2 SigProofs3 SigProofs4 SigProofs5 SigProofs6.

(** *** No iteration after a terminating signal has been let through.  TWaitError never happens, so nothing ends the request. *)
Notation tsince g t := (since (TArrive g) TWaitError t).
Notation topened g t := (opened (TArrive g) TWaitError t).
Record stopping (s : st) : Prop := mk_stopping {
  p_since : forall g, terminating g -> tsince g (s_trace s) = true -> In g (s_pending s) \/ s_term s <> None;
  p_opened : forall g, terminating g -> topened g (s_trace s) = true -> s_term s <> None }.
Definition stop_state (s : st) : Prop := (forall g, good (TArrive g) TWaitError (s_trace s) \/ ~ terminating g) /\ (fin (s_pc s) = false -> stopping s).

Lemma stop_same : forall s s', stopping s -> (forall g, In g (s_pending s) -> In g (s_pending s')) -> (s_term s <> None -> s_term s' <> None) ->
  (s_trace s' = s_trace s \/ exists x, s_trace s' = x :: s_trace s /\ x <> TOpen /\ forall g, terminating g -> x <> TArrive g) -> stopping s'.
Proof.
  intros s s' [P1 P2] E1 E2 Tr. constructor; intros g Tg H.
  - assert (X : tsince g (s_trace s) = true).
    { destruct Tr as [Tr|(x & Tr & N1 & N2)]; rewrite Tr in H; [exact H|]. destruct (tev_eq_dec x TWaitError) as [->|N]; [rewrite since_D in H; discriminate|].
      rewrite since_other in H; [exact H|exact (N2 g Tg)|exact N]. }
    destruct (P1 g Tg X) as [Y|Y]; [left; exact (E1 g Y)|right; exact (E2 Y)].
  - apply E2, (P2 g Tg). destruct Tr as [Tr|(x & Tr & N1 & N2)]; rewrite Tr in H; [exact H|]. destruct (tev_eq_dec x TWaitError) as [->|N]; [rewrite opened_D in H; discriminate|].
    rewrite opened_other in H; assumption.
Qed.
Lemma noted_term : forall c l s s', noted c l s s' -> s_term s <> None -> s_term s' <> None.
Proof. intros c l s s' N H. destruct (n_term _ _ _ _ N) as [[-> _]|(g & -> & _)]; [exact H|discriminate]. Qed.
Lemma noted_terminating : forall c l s s' g, noted c l s s' -> terminating g -> In g l -> s_term s' <> None.
Proof.
  intros c l s s' g N T I. destruct (n_term _ _ _ _ N) as [[_ X]|(h & -> & _)]; [|discriminate].
  assert (Y : existsb is_term l = true) by (apply existsb_exists; exists g; split; [exact I|apply is_term_spec; exact T]). congruence.
Qed.
(** After delivery of some or all pending signals *)
Lemma stop_delivered : forall c l s s1 s', stopping s -> frame s s1 -> noted c l s s1 ->
  (forall g, In g (s_pending s) -> In g (s_pending s1) \/ In g l) -> s_pending s' = s_pending s1 -> s_term s' = s_term s1 ->
  (s_trace s' = s_trace s1 \/ (s_trace s' = TOpen :: s_trace s1 /\ s_pending s1 = [])) -> stopping s'.
Proof.
  intros c l s s1 s' [P1 P2] Fr Nt Sub E1 E2 Tr.
  assert (C : forall g, terminating g -> In g (s_pending s) \/ s_term s <> None -> In g (s_pending s') \/ s_term s' <> None).
  { intros g T [X|X]; rewrite E1, E2; [|right; exact (noted_term _ _ _ _ Nt X)]. destruct (Sub g X) as [Y|Y]; [left; exact Y|right; exact (noted_terminating _ _ _ _ g Nt T Y)]. }
  constructor; intros g T H.
  - apply (C g T), (P1 g T). destruct Tr as [Tr|[Tr _]]; rewrite Tr, (f_trace _ _ Fr) in H; [exact H|]. rewrite since_other in H by discriminate. exact H.
  - destruct Tr as [Tr|[Tr Sp]]; rewrite Tr, (f_trace _ _ Fr) in H; [rewrite E2; exact (noted_term _ _ _ _ Nt (P2 g T H))|].
    rewrite opened_open in H by discriminate. apply orb_prop in H as [H|H]; [|rewrite E2; exact (noted_term _ _ _ _ Nt (P2 g T H))].
    destruct (C g T (P1 g T H)) as [X|X]; [rewrite E1, Sp in X; contradiction|exact X].
Qed.
Lemma gen_stop : forall c g s, plain s -> over (generate c g s) = false ->
  (forall h, In h (s_pending s) -> In h (s_pending (generate c g s))) /\ (s_term s <> None -> s_term (generate c g s) <> None) /\
  (terminating g -> In g (s_pending (generate c g s)) \/ s_term (generate c g s) <> None).
Proof.
  intros c g s P O. destruct (generate_view c g s P) as [D|l D H Hl|D H].
  - split; [tauto|]. split; [tauto|]. intros T. rewrite (terminating_handled g T) in D. discriminate.
  - cbn [s_pending set_pc set_pending s_term]. split; [intros h X; apply Hl; left; exact X|]. split; [tauto|]. intros _. left. apply Hl. right. reflexivity.
  - destruct (deliver_noted c g (set_pc (wake (s_pc s)) s) P O) as [Nt Sp]. rewrite Sp. cbn [s_pending set_pc]. split; [tauto|].
    split; [exact (noted_term _ _ _ _ Nt)|]. intros T. right. apply (noted_terminating _ _ _ _ g Nt T). left. reflexivity.
Qed.

Lemma wait_stop : forall c order w s s', plain s -> stopping s -> wait_step c order w s = Some s' -> fin (s_pc s') = false -> stopping s'.
Proof.
  intros c order w s s' P R H Ff. unfold wait_step in H.
  assert (X : forall p, stopping (set_pc p s)) by (intros p; apply (stop_same s); [exact R|tauto|tauto|left; reflexivity]).
  destruct (c_epoll c).
  - assert (Fo : forall l p, s' = goto p (set_mask init_mask (fold_left (deliver1 c) l s)) -> stopping s').
    { intros l p ->. destruct (goto_fin _ _ Ff) as [O ->]. destruct (fold_noted c l s P O) as [Nt Sp].
      apply (stop_delivered c l s (fold_left (deliver1 c) l s)); try assumption; try reflexivity; [apply fold_frame| |left; reflexivity].
      intros g G. destruct (in_dec sig_eq_dec g l) as [Y|Y]; [right; exact Y|left; apply Sp; split; assumption]. }
    destruct w as [| |async l|l].
    + destruct (s_pending s); [|discriminate]. injection H as <-. apply X.
    + destruct (s_pending s) eqn:Es; [discriminate|]. destruct (deliver_all c order s) as [s1|] eqn:D; [|discriminate]. injection H as <-.
      destruct (deliver_all_view _ _ _ _ P D) as (s2 & -> & Fr & V). destruct (goto_fin _ _ Ff) as [O ->]. destruct (V O) as [Sp Nt].
      apply (stop_delivered c (s_pending s) s s2); try assumption; try reflexivity; [intros g G; right; exact G|right; split; [reflexivity|exact Sp]].
    + destruct (forallb _ l && _); [|discriminate]. injection H as <-. exact (Fo l _ eq_refl).
    + destruct (forallb _ l); [|discriminate]. injection H as <-. exact (Fo l _ eq_refl).
  - destruct w as [| |async l|l].
    + destruct (s_queue s =? 0)%nat; [|discriminate]. injection H as <-. apply X.
    + injection H as <-. apply X.
    + destruct (negb async || _); [|discriminate]. injection H as <-. apply X.
    + injection H as <-. apply X.
Qed.

Lemma stop_cons : forall x t, (forall g, good (TArrive g) TWaitError t \/ ~ terminating g) -> x <> TIter -> forall g, good (TArrive g) TWaitError (x :: t) \/ ~ terminating g.
Proof. intros x t G N g. destruct (G g) as [H|H]; [left; split; [exact H|contradiction]|right; exact H]. Qed.
Lemma next_stop : forall c order w s s', basic c s -> stop_state s -> next c order w s = Some s' -> stop_state s'.
Proof.
  intros c order w s s' B [G R] H.
  assert (Sm : forall s2, fin (s_pc s) = false -> s_pending s2 = s_pending s -> s_term s2 = s_term s -> s_trace s2 = s_trace s -> stop_state s2).
  { intros s2 F E1 E2 E3. split; [rewrite E3; exact G|]. intros _. apply (stop_same s); [exact (R F)|rewrite E1; tauto|rewrite E2; tauto|left; exact E3]. }
  assert (Sy : forall x s2, fin (s_pc s) = false -> s_pending s2 = s_pending s -> s_term s2 = s_term s -> s_trace s2 = x :: s_trace s -> x <> TOpen -> x <> TIter ->
    (forall g, x <> TArrive g) -> stop_state s2).
  { intros x s2 F E1 E2 E3 N1 N2 N3. split; [rewrite E3; apply stop_cons; assumption|]. intros _.
    apply (stop_same s); [exact (R F)|rewrite E1; tauto|rewrite E2; tauto|right; exists x; split; [exact E3|]; split; [exact N1|intros g _; apply N3]]. }
  assert (Da : forall p s1, deliver_all c order (set_mask no_mask s) = Some s1 -> (fin p = false -> fin (s_pc s) = false) -> stop_state (goto p s1)).
  { intros p s1 D Fp. split; [rewrite goto_trace, (deliver_all_trace _ _ _ _ D); apply stop_cons; [exact G|discriminate]|]. intros Ff.
    assert (Fp' : fin p = false) by (destruct (goto_fin _ _ Ff) as [_ E]; rewrite E in Ff; exact Ff).
    specialize (Fp Fp'). destruct (deliver_all_view _ _ _ _ (l_plain _ _ (B Fp) : plain (set_mask no_mask s)) D) as (s2 & -> & Fr & V).
    destruct (goto_fin _ _ Ff) as [O ->]. destruct (V O) as [Sp Nt].
    apply (stop_delivered c (s_pending s) (set_mask no_mask s) s2); try assumption; try reflexivity.
    - apply (stop_same s); [exact (R Fp)|tauto|tauto|left; reflexivity].
    - intros g X. right. exact X.
    - right. split; [reflexivity|exact Sp]. }
  assert (W : forall s1, plain s1 -> stopping s1 -> s_trace s1 = s_trace s -> wait_step c order w s1 = Some s' -> stop_state s').
  { intros s1 P1 R1 E1 H1. split; [destruct (wait_trace _ _ _ _ _ H1) as [->| ->]; rewrite E1; [exact G|apply stop_cons; [exact G|discriminate]]|]. exact (wait_stop _ _ _ _ _ P1 R1 H1). }
  unfold next in H. destruct (s_pc s) eqn:Epc; try discriminate; cbn [fin] in *; try (injection H as <-; apply Sm; reflexivity).
  - destruct (s_term s) as [g|] eqn:Et; injection H as <-.
    + apply (Sy TCleanup); try reflexivity; try discriminate. exact Et.
    + split.
      * cbn [s_trace say set_pc]. intros g. destruct (G g) as [X|X]; [|right; exact X]. destruct (is_term g) eqn:T; [|right; intros Y; apply is_term_spec in Y; congruence].
        apply is_term_spec in T. left. split; [exact X|]. intros _. destruct (topened g (s_trace s)) eqn:O; [|reflexivity]. exfalso. apply (p_opened _ (R eq_refl) g T O). exact Et.
      * intros _. apply (stop_same s); [exact (R eq_refl)|tauto|tauto|right; exists TIter; split; [reflexivity|]; split; [discriminate|intros g _; discriminate]].
  - destruct (c_epoll c); [injection H as <-; apply Sm; reflexivity|].
    destruct (deliver_all c order (set_mask no_mask s)) as [s1|] eqn:D; [|discriminate]. injection H as <-. apply Da; [reflexivity|reflexivity].
  - apply (W s); try reflexivity; [|exact (R eq_refl)|exact H]. apply (l_plain c). apply B. rewrite Epc. reflexivity.
  - assert (Pw : plain (set_pc PWait s)) by (apply (l_plain c s); apply B; rewrite Epc; reflexivity).
    assert (Rw : stopping (set_pc PWait s)) by (apply (stop_same s); [exact (R eq_refl)|tauto|tauto|left; reflexivity]).
    destruct w; try discriminate; exact (W _ Pw Rw eq_refl H).
  - injection H as <-. destruct async; apply Sm; reflexivity.
  - destruct (s_reload s); injection H as <-; [apply (Sy TReload); try reflexivity; discriminate|apply Sm; reflexivity].
  - destruct (s_reset s); injection H as <-; [apply (Sy TReset); try reflexivity; discriminate|apply Sm; reflexivity].
  - destruct (s_child s); injection H as <-; apply Sm; reflexivity.
  - destruct (nth_error (s_pids s) i) as [pid|]; [|injection H as <-; apply Sm; reflexivity].
    destruct (find_kid pid (s_kids s)) as [k|]; [|injection H as <-; apply (Sy TWaitError); try reflexivity; discriminate].
    destruct (k_ended k); injection H as <-; [apply (Sy (TReaped pid)); try reflexivity; discriminate|apply Sm; reflexivity].
  - destruct (s_term s); [|discriminate]. injection H as <-. split; [exact G|discriminate].
  - destruct (deliver_all c order (set_mask no_mask s)) as [s1|] eqn:D; [|discriminate]. injection H as <-. apply Da; [reflexivity|discriminate].
  - destruct (s_term s) as [g|]; [|discriminate]. injection H as <-. split; [rewrite goto_trace, (f_trace _ _ (deliver_frame c g s)); exact G|].
    intros Ff. destruct (goto_fin _ _ Ff) as [_ E]. rewrite E in Ff. discriminate.
Qed.
Lemma step_stop : forall c s e s', basic c s -> stop_state s -> step c s e = Some s' -> stop_state s'.
Proof.
  intros c s e s' B [G R] H. pose proof (step_fin c s e s') as Sf.
  assert (F : fin (s_pc s') = false -> fin (s_pc s) = false) by (intros F'; destruct (fin (s_pc s)) eqn:F; [specialize (Sf eq_refl H); congruence|reflexivity]).
  clear Sf. unfold step in H. destruct (over s) eqn:O; [discriminate|].
  assert (Sm : forall s2, (fin (s_pc s2) = false -> fin (s_pc s) = false) -> s_pending s2 = s_pending s -> s_term s2 = s_term s -> s_trace s2 = s_trace s -> stop_state s2).
  { intros s2 F1 E1 E2 E3. split; [rewrite E3; exact G|]. intros F2. apply (stop_same s); [exact (R (F1 F2))|rewrite E1; tauto|rewrite E2; tauto|left; exact E3]. }
  destruct e.
  - injection H as <-. split; [rewrite generate_trace; apply stop_cons; [exact G|discriminate]|]. intros F2. specialize (F F2). specialize (R F).
    destruct (gen_stop c g (say (TArrive g) s) (l_plain _ _ (B F)) (not_over _ F2)) as (G1 & G2 & G3). destruct R as [R1 R2]. constructor; intros h T X; rewrite generate_trace in X; cbn [s_trace say] in X.
    + destruct (sig_eq_dec h g) as [->|N]; [exact (G3 T)|]. rewrite since_other in X by congruence. destruct (R1 h T X) as [Y|Y]; [left; exact (G1 h Y)|right; exact (G2 Y)].
    + rewrite opened_other in X by discriminate. exact (G2 (R2 h T X)).
  - destruct (find_kid pid (s_kids s)) as [k|] eqn:Hf; [|discriminate]. destruct (k_ended k) eqn:He; [discriminate|]. injection H as <-.
    split; [rewrite generate_trace; apply stop_cons; [exact G|discriminate]|]. intros F2. specialize (F F2). specialize (R F).
    set (s1 := say (TEnded pid (k_async k)) (set_kids (end_kid pid (s_kids s)) s)) in *.
    destruct (gen_stop c SIGCHLD s1 (l_plain _ _ (B F)) (not_over _ F2)) as (G1 & G2 & _).
    apply (stop_same s); [exact R|exact G1|exact G2|]. right. exists (TEnded pid (k_async k)). rewrite generate_trace. split; [reflexivity|]. split; [discriminate|intros g _; discriminate].
  - destruct (known pid s); [discriminate|]. injection H as <-. apply Sm; try reflexivity. exact F.
  - destruct (find_kid pid (s_kids s)) as [[p [|] [|]]|]; try discriminate. injection H as <-. apply Sm; try reflexivity. exact F.
  - injection H as <-. rewrite wake_eq in *. apply Sm; [exact F| | |]; unfold enqueue; destruct (_ <? _)%nat; reflexivity.
  - destruct (s_forked s); [discriminate|]. destruct (known pid s || _); [discriminate|]. injection H as <-. split; [apply stop_cons; [exact G|discriminate]|].
    intros F2. apply (stop_same s); [exact (R (F F2))|tauto|tauto|]. right. exists (TForked pid). split; [reflexivity|]. split; [discriminate|intros g _; discriminate].
  - destruct (s_forked s); [|discriminate]. injection H as <-. apply Sm; try reflexivity. exact F.
  - destruct (s_forked s); [discriminate|]. exact (next_stop _ _ _ _ _ B (conj G R) H).
Qed.
Lemma run_stop : forall c s, run c s -> stop_state s.
Proof.
  intros c s H. induction H as [|s e s' H IH E]; [|exact (step_stop c s e s' (run_basic c s H) IH E)].
  split; [intros g; left; exact I|]. intros _. constructor; intros g _; discriminate.
Qed.
