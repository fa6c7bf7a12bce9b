(** How the process ends *)
From Coq Require Import Lia ZifyBool ZifyNat ZifyN.
From Verif Require Import Base SigModel SigSpec SigProofs SigProofs2 SigProofs3 SigProofs4 SigProofs5.

(** *** One entry for a step *)
Lemma next_trace : forall c order w s s', next c order w s = Some s' -> s_trace s' = s_trace s \/ exists x, s_trace s' = x :: s_trace s.
Proof.
  intros c order w s s' H. assert (W : forall s1, wait_step c order w s1 = Some s' -> s_trace s' = s_trace s1 \/ exists x, s_trace s' = x :: s_trace s1).
  { intros s1 X. destruct (wait_trace _ _ _ _ _ X) as [E|E]; [left; exact E|right; exists TOpen; exact E]. }
  assert (Da : forall p s1, option_map (goto p) (deliver_all c order s1) = Some s' -> s_trace s' = s_trace s1 \/ exists x, s_trace s' = x :: s_trace s1).
  { intros p s1 X. destruct (deliver_all c order s1) as [s2|] eqn:D; [|discriminate]. injection X as <-. right. exists TOpen. rewrite goto_trace. exact (deliver_all_trace _ _ _ _ D). }
  unfold next in H. destruct (s_pc s) eqn:Epc; try discriminate; try (injection H as <-; left; reflexivity).
  - destruct (s_term s); injection H as <-; right; eexists; reflexivity.
  - destruct (c_epoll c); [injection H as <-; left; reflexivity|]. exact (Da _ _ H).
  - exact (W _ H).
  - destruct w; try discriminate; exact (W _ H).
  - injection H as <-. destruct async; left; reflexivity.
  - destruct (s_reload s); injection H as <-; [right; eexists; reflexivity|left; reflexivity].
  - destruct (s_reset s); injection H as <-; [right; eexists; reflexivity|left; reflexivity].
  - destruct (s_child s); injection H as <-; left; reflexivity.
  - destruct (nth_error (s_pids s) i); [|injection H as <-; left; reflexivity]. destruct (find_kid n (s_kids s)) as [k|]; [|injection H as <-; right; eexists; reflexivity].
    destruct (k_ended k); injection H as <-; [right; eexists; reflexivity|left; reflexivity].
  - destruct (s_term s); [|discriminate]. injection H as <-. left. reflexivity.
  - exact (Da _ _ H).
  - destruct (s_term s) as [g|]; [|discriminate]. injection H as <-. left. rewrite goto_trace. apply deliver_frame.
Qed.
Lemma step_trace : forall c s e s', step c s e = Some s' -> s_trace s' = s_trace s \/ exists x, s_trace s' = x :: s_trace s.
Proof.
  intros c s e s' H. unfold step in H. destruct (over s) eqn:O; [discriminate|]. destruct e.
  - injection H as <-. right. eexists. rewrite generate_trace. reflexivity.
  - destruct (find_kid pid (s_kids s)) as [k|]; [|discriminate]. destruct (k_ended k); [discriminate|]. injection H as <-. right. eexists. rewrite generate_trace. reflexivity.
  - destruct (known pid s); [discriminate|]. injection H as <-. left. reflexivity.
  - destruct (find_kid pid (s_kids s)) as [[p [|] [|]]|]; try discriminate. injection H as <-. left. reflexivity.
  - injection H as <-. left. rewrite wake_eq. rewrite (f_trace _ _ (enqueue_frame c (set_pc (wake (s_pc s)) s))). reflexivity.
  - destruct (s_forked s); [discriminate|]. destruct (known pid s || _); [discriminate|]. injection H as <-. right. eexists. reflexivity.
  - destruct (s_forked s); [|discriminate]. injection H as <-. left. reflexivity.
  - destruct (s_forked s); [discriminate|]. exact (next_trace _ _ _ _ _ H).
Qed.
Lemma run_prefix : forall c s, run c s -> forall x y, s_trace s = x ++ y -> exists s0, run c s0 /\ s_trace s0 = y.
Proof.
  intros c s H. induction H as [|s e s' H IH E]; intros x y Ex.
  - destruct x; [|discriminate]. destruct y; [|discriminate]. exists start. split; [constructor|reflexivity].
  - destruct x as [|z x].
    + exists s'. split; [exact (run_step c s e s' H E)|exact Ex].
    + destruct (step_trace c s e s' E) as [T|[w T]]; rewrite T in Ex; [exact (IH _ _ Ex)|]. injection Ex as _ Ex. exact (IH _ _ Ex).
Qed.

(** *** Where signals come from *)
Definition arr (s : st) (g : sig) : Prop := In (TArrive g) (s_trace s).
Definition ending (s : st) : Prop :=
  exists g0, terminating g0 /\ arr s g0 /\ In TCleanup (s_trace s) /\ forall g, s_disp s g = if sig_eqb g g0 then Dfl else init_disp g.
Definition place (p : pc) : nat := match p with PCleanup | PTerm1 => 1 | PTerm2 | PTerm3 => 2 | PDead _ | PExit _ => 3 | _ => 0 end.
Record term_ok (s : st) : Prop := mk_term_ok {
  t_disp : plain s \/ ending s;
  t_term : forall g, s_term s = Some g -> terminating g /\ arr s g;
  t_pend : forall g, In g (s_pending s) -> arr s g \/ g = SIGCHLD;
  t_clean : In TCleanup (s_trace s) -> exists g, terminating g /\ arr s g;
  t_one : place (s_pc s) = 1%nat -> In TCleanup (s_trace s);
  t_two : place (s_pc s) = 2%nat -> ending s;
  t_dead : forall g, s_pc s = PDead g -> arr s g /\ ((terminating g /\ In TCleanup (s_trace s)) \/ unhandled g);
  t_exit : forall n, s_pc s = PExit n -> n = 255%N /\ In TCleanup (s_trace s) /\ exists g h, g <> h /\ terminating g /\ terminating h /\ arr s g /\ arr s h }.

Lemma term_same : forall s s', term_ok s -> s_disp s' = s_disp s -> s_pending s' = s_pending s -> s_term s' = s_term s ->
  (s_trace s' = s_trace s \/ exists x, s_trace s' = x :: s_trace s /\ x <> TCleanup) ->
  (s_pc s' = s_pc s \/ place (s_pc s') = 0%nat \/ (place (s_pc s) = place (s_pc s') /\ place (s_pc s) <> 3%nat)) -> term_ok s'.
Proof.
  intros s s' [H1 H2 H3 H4 H5 H6 H7 H8] E1 E2 E3 Tr Pl.
  assert (Ar : forall x, In x (s_trace s) -> In x (s_trace s')) by (intros x X; destruct Tr as [->|(z & -> & _)]; [exact X|right; exact X]).
  assert (Cl : In TCleanup (s_trace s') -> In TCleanup (s_trace s)) by (intros X; destruct Tr as [Tr|(z & Tr & N)]; rewrite Tr in X; [exact X|destruct X as [X|X]; [contradiction|exact X]]).
  assert (En : ending s -> ending s') by (intros (g & A & B & D & F); exists g; split; [exact A|]; split; [exact (Ar _ B)|]; split; [exact (Ar _ D)|]; rewrite E1; exact F).
  assert (Pc : s_pc s' = s_pc s \/ (place (s_pc s') = 0%nat \/ place (s_pc s) = place (s_pc s')) /\ place (s_pc s') <> 3%nat) by (destruct Pl as [P|[P|[P Q]]]; [left; exact P|right; lia|right; lia]).
  constructor.
  - destruct H1 as [P|X]; [left; unfold plain; rewrite E1; exact P|right; exact (En X)].
  - intros g X. rewrite E3 in X. destruct (H2 g X) as [A B]. split; [exact A|exact (Ar _ B)].
  - intros g X. rewrite E2 in X. destruct (H3 g X) as [A|A]; [left; exact (Ar _ A)|right; exact A].
  - intros X. destruct (H4 (Cl X)) as (g & A & B). exists g. split; [exact A|exact (Ar _ B)].
  - intros X. apply Ar, H5. destruct Pc as [E|[[E|E] _]]; [rewrite <- E; exact X|lia|lia].
  - intros X. apply En, H6. destruct Pc as [E|[[E|E] _]]; [rewrite <- E; exact X|lia|lia].
  - intros g X. destruct Pc as [E|[_ E]]; [|rewrite X in E; contradiction (E eq_refl)]. rewrite E in X. destruct (H7 g X) as [A [[B D]|B]]; (split; [exact (Ar _ A)|]); [left; split; [exact B|exact (Ar _ D)]|right; exact B].
  - intros n X. destruct Pc as [E|[_ E]]; [|rewrite X in E; contradiction (E eq_refl)]. rewrite E in X. destruct (H8 n X) as (A & B & g & h & F1 & F2 & F3 & F4 & F5).
    split; [exact A|]. split; [exact (Ar _ B)|]. exists g, h. repeat (split; [assumption|]). split; [exact (Ar _ F4)|exact (Ar _ F5)].
Qed.

Lemma on_signal_term : forall c g s, s_pending (on_signal c g s) = s_pending s /\ s_pc (on_signal c g s) = s_pc s /\
  (s_term (on_signal c g s) = s_term s \/ (s_term (on_signal c g s) = Some g /\ terminating g)).
Proof.
  intros c g s. assert (E : forall s0, s_pending (enqueue c s0) = s_pending s0 /\ s_pc (enqueue c s0) = s_pc s0 /\ s_term (enqueue c s0) = s_term s0).
  { intros s0. unfold enqueue. destruct (s_queue s0 <? c_cap c)%nat; repeat split. }
  destruct g; cbn [on_signal]; try (repeat split; left; reflexivity);
    (destruct (c_epoll c); [|match goal with |- context [enqueue c ?x] => destruct (E x) as (-> & -> & ->) end]; repeat split;
     try (left; reflexivity); (right; split; [reflexivity|unfold terminating; tauto])).
Qed.
Lemma terminating_handled : forall g, terminating g -> init_disp g = Handler.
Proof. intros g [->|[->| ->]]; reflexivity. Qed.
Lemma dfl_unhandled : forall g, init_disp g = Dfl -> kills g = true -> unhandled g.
Proof. intros g. destruct g; try discriminate; cbn; auto. Qed.

Lemma deliver_term : forall c g s, term_ok s -> arr s g \/ g = SIGCHLD -> term_ok (deliver c g s).
Proof.
  intros c g s T A. unfold deliver. destruct (over s) eqn:O; [exact T|]. destruct (s_disp s g) eqn:D; [|exact T|].
  - destruct (kills g) eqn:Kl; [|exact T]. assert (Ag : arr s g) by (destruct A as [A|A]; [exact A|subst g; discriminate]).
    destruct T as [H1 H2 H3 H4 H5 H6 H7 H8]. constructor; try assumption; try discriminate. cbn [s_pc set_pc]. intros h [= <-]. split; [exact Ag|].
    destruct H1 as [P|(g0 & T0 & A0 & C0 & F)].
    + right. apply dfl_unhandled; [rewrite <- (P g); exact D|exact Kl].
    + rewrite F in D. destruct (sig_eqb g g0) eqn:E; [apply sig_eqb_eq in E; subst g0; left; split; assumption|right; apply dfl_unhandled; assumption].
  - destruct (on_signal_frame c g s) as [_ _ F3 _ _ _ F7 _]. destruct (on_signal_term c g s) as (E1 & E2 & E3).
    assert (X : term_ok (set_term (s_term (on_signal c g s)) s)).
    { destruct T as [H1 H2 H3 H4 H5 H6 H7 H8]. constructor; try assumption. cbn [s_term set_term]. intros h X. destruct E3 as [E3|[E3 Tg]]; rewrite E3 in X; [exact (H2 h X)|].
      injection X as <-. split; [exact Tg|]. destruct A as [A|A]; [exact A|subst g; destruct Tg as [Y|[Y|Y]]; discriminate]. }
    apply (term_same _ _ X); [exact F3|exact E1|reflexivity|left; exact F7|left; exact E2].
Qed.
Lemma term_remove : forall l s, term_ok s -> (forall g, In g l -> In g (s_pending s)) -> term_ok (set_pending l s).
Proof. intros l s [H1 H2 H3 H4 H5 H6 H7 H8] H. constructor; try assumption. intros g X. apply (H3 g), H, X. Qed.
Lemma fold_term : forall c l s, term_ok s -> (forall g, In g l -> arr s g \/ g = SIGCHLD) -> term_ok (fold_left (deliver1 c) l s).
Proof.
  intros c l. induction l as [|g l IH]; intros s T H; [exact T|]. cbn [fold_left]. apply IH.
  - unfold deliver1. apply deliver_term; [|exact (H g (or_introl eq_refl))]. apply term_remove; [exact T|]. intros h X. apply remove_in in X. apply X.
  - intros h X. unfold arr. rewrite (f_trace _ _ (deliver1_frame c s g)). exact (H h (or_intror X)).
Qed.
Lemma all_term : forall c order s s', term_ok s -> deliver_all c order s = Some s' -> term_ok s'.
Proof.
  intros c order s s' T H. unfold deliver_all in H. destruct (same order (s_pending s)) eqn:E; [|discriminate]. injection H as <-.
  assert (X : term_ok (fold_left (deliver1 c) order s)) by (apply fold_term; [exact T|]; intros g G; apply (t_pend _ T); apply (same_in _ _ E); exact G).
  apply (term_same _ _ X); try reflexivity; [right; exists TOpen; split; [reflexivity|discriminate]|left; reflexivity].
Qed.
Lemma goto_term : forall p s, term_ok s -> place p = 0%nat \/ (place (s_pc s) = place p /\ place p <> 3%nat) -> term_ok (goto p s).
Proof.
  intros p s T H. unfold goto. destruct (over s); [exact T|]. apply (term_same _ _ T); try reflexivity; [left; reflexivity|right]. cbn [s_pc set_pc]. lia.
Qed.
Lemma term_mask : forall m s, term_ok s -> term_ok (set_mask m s).
Proof. intros m s T. apply (term_same _ _ T); try reflexivity; left; reflexivity. Qed.
Lemma generate_term : forall c g s, term_ok s -> arr s g \/ g = SIGCHLD -> term_ok (generate c g s).
Proof.
  intros c g s T A. unfold generate. assert (W : forall s0, term_ok s0 -> term_ok (set_pc (wake (s_pc s0)) s0)).
  { intros s0 T0. apply (term_same _ _ T0); try reflexivity; [left; reflexivity|]. cbn [s_pc set_pc]. destruct (s_pc s0); cbn [wake]; auto. }
  assert (X : term_ok (if s_mask s g || (c_epoll c && match s_pc s with PWait | PSleep => true | _ => false end) then
        let s := if member g (s_pending s) then s else set_pending (s_pending s ++ [g]) s in
        match s_pc s with PSleep => set_pc PWait s | _ => s end
      else
        let s := match s_pc s with PSleep => set_pc PWait s | _ => s end in
        deliver c g s)).
  { destruct (s_mask s g || _); cbv zeta; rewrite wake_eq.
    - apply W. destruct (member g (s_pending s)); [exact T|]. destruct T as [H1 H2 H3 H4 H5 H6 H7 H8]. constructor; try assumption.
      cbn [s_pending set_pending]. intros h X. apply in_app_or in X as [X|[<-|[]]]; [exact (H3 h X)|exact A].
    - apply deliver_term; [exact (W s T)|exact A]. }
  destruct (s_disp s g); [exact X|exact T|exact X].
Qed.

Lemma wait_term : forall c order w s s', term_ok s -> s_pc s = PWait -> wait_step c order w s = Some s' -> term_ok s'.
Proof.
  intros c order w s s' T Epc H. unfold wait_step in H.
  assert (X : forall p, place p = 0%nat -> term_ok (set_pc p s)) by (intros p Hp; apply (term_same _ _ T); try reflexivity; [left; reflexivity|right; left; exact Hp]).
  assert (Fo : forall l p, place p = 0%nat -> forallb (fun g => member g (s_pending s)) l = true -> term_ok (goto p (set_mask init_mask (fold_left (deliver1 c) l s)))).
  { intros l p Hp Hl. apply goto_term; [|left; exact Hp]. apply term_mask, fold_term; [exact T|]. intros g G. rewrite forallb_forall in Hl. apply (t_pend _ T), member_in, Hl, G. }
  destruct (c_epoll c), w as [| |async l|l].
  - destruct (s_pending s); [|discriminate]. injection H as <-. apply X. reflexivity.
  - destruct (s_pending s) eqn:E; [discriminate|]. destruct (deliver_all c order s) as [s1|] eqn:D; [|discriminate]. injection H as <-.
    apply goto_term; [|left; reflexivity]. apply term_mask. exact (all_term _ _ _ _ T D).
  - destruct (forallb _ l) eqn:Hl; [|discriminate]. cbn [andb] in H. destruct (negb async || _); [|discriminate]. injection H as <-. apply Fo; [reflexivity|exact Hl].
  - destruct (forallb _ l) eqn:Hl; [|discriminate]. injection H as <-. apply Fo; [reflexivity|exact Hl].
  - destruct (s_queue s =? 0)%nat; [|discriminate]. injection H as <-. apply X. reflexivity.
  - injection H as <-. apply X. reflexivity.
  - destruct (negb async || _); [|discriminate]. injection H as <-. apply X. reflexivity.
  - injection H as <-. apply X. reflexivity.
Qed.

Lemma next_term : forall c order w s s', basic c s -> term_ok s -> next c order w s = Some s' -> term_ok s'.
Proof.
  intros c order w s s' B T H.
  assert (Sm : forall s2, s_disp s2 = s_disp s -> s_pending s2 = s_pending s -> s_term s2 = s_term s -> s_trace s2 = s_trace s ->
    (s_pc s2 = s_pc s \/ place (s_pc s2) = 0%nat \/ (place (s_pc s) = place (s_pc s2) /\ place (s_pc s) <> 3%nat)) -> term_ok s2).
  { intros s2 E1 E2 E3 E4 E5. apply (term_same s); try assumption. left. exact E4. }
  assert (Sy : forall x s2, s_disp s2 = s_disp s -> s_pending s2 = s_pending s -> s_term s2 = s_term s -> s_trace s2 = x :: s_trace s -> x <> TCleanup ->
    (s_pc s2 = s_pc s \/ place (s_pc s2) = 0%nat) -> term_ok s2).
  { intros x s2 E1 E2 E3 E4 E5 E6. apply (term_same s); try assumption; [right; exists x; split; assumption|]. destruct E6 as [E6|E6]; auto. }
  unfold next in H. destruct (s_pc s) eqn:Epc; try discriminate; try (injection H as <-; apply Sm; try reflexivity; right; left; reflexivity).
  - destruct (s_term s) as [g|] eqn:Et; injection H as <-; [|apply (Sy TIter); try reflexivity; [symmetry in Et; exact (eq_sym Et)|discriminate|right; reflexivity]].
    destruct T as [H1 H2 H3 H4 H5 H6 H7 H8]. constructor; cbn [s_disp s_trace s_pc s_pending s_term say set_pc place]; try discriminate.
    + destruct H1 as [P|(g0 & A1 & A2 & A3 & A4)]; [left; exact P|right; exists g0; split; [exact A1|]; split; [right; exact A2|]; split; [left; reflexivity|exact A4]].
    + intros h X. destruct (H2 h X) as [A C]. split; [exact A|right; exact C].
    + intros h X. destruct (H3 h X) as [A|A]; [left; right; exact A|right; exact A].
    + intros _. exists g. destruct (H2 g Et) as [A C]. split; [exact A|right; exact C].
    + intros _. left. reflexivity.
  - destruct (c_epoll c); [injection H as <-; apply Sm; try reflexivity; right; left; reflexivity|].
    destruct (deliver_all c order (set_mask no_mask s)) as [s1|] eqn:D; [|discriminate]. injection H as <-. apply goto_term; [|left; reflexivity].
    exact (all_term _ _ _ _ (term_mask _ _ T) D).
  - exact (wait_term _ _ _ _ _ T Epc H).
  - assert (Tw : term_ok (set_pc PWait s)) by (apply Sm; try reflexivity; right; left; reflexivity).
    destruct w; try discriminate; exact (wait_term _ _ _ _ _ Tw eq_refl H).
  - injection H as <-. apply Sm; try reflexivity. right. left. destruct ready; reflexivity.
  - injection H as <-. destruct async; apply Sm; try reflexivity; right; left; reflexivity.
  - destruct (s_reload s); injection H as <-; [apply (Sy TReload); try reflexivity; [discriminate|right; reflexivity]|apply Sm; try reflexivity; right; left; reflexivity].
  - destruct (s_reset s); injection H as <-; [apply (Sy TReset); try reflexivity; [discriminate|right; reflexivity]|apply Sm; try reflexivity; right; left; reflexivity].
  - destruct (s_child s); injection H as <-; apply Sm; try reflexivity; right; left; reflexivity.
  - destruct (nth_error (s_pids s) i) as [pid|]; [|injection H as <-; apply Sm; try reflexivity; right; left; reflexivity].
    destruct (find_kid pid (s_kids s)) as [k|]; [|injection H as <-; apply (Sy TWaitError); try reflexivity; [discriminate|left; exact Epc]].
    destruct (k_ended k); injection H as <-; [apply (Sy (TReaped pid)); try reflexivity; [discriminate|left; exact Epc]|apply Sm; try reflexivity; right; left; reflexivity].
  - injection H as <-. apply Sm; try reflexivity. right. right. split; [reflexivity|discriminate].
  - destruct (s_term s) as [g|] eqn:Et; [|discriminate]. injection H as <-.
    assert (P : plain s) by (apply (l_plain c); apply B; rewrite Epc; reflexivity).
    destruct T as [H1 H2 H3 H4 H5 H6 H7 H8]. assert (En : ending (set_pc PTerm2 (set_disp (fun h => if sig_eqb h g then Dfl else s_disp s h) s))).
    { exists g. destruct (H2 g Et) as [A C]. split; [exact A|]. split; [exact C|]. split; [apply H5; rewrite Epc; reflexivity|].
      intros h. cbn [s_disp set_pc set_disp]. rewrite (P h). reflexivity. }
    constructor; try assumption; try discriminate; [right; exact En|intros _; exact En].
  - destruct (deliver_all c order (set_mask no_mask s)) as [s1|] eqn:D; [|discriminate]. injection H as <-.
    unfold goto. pose proof (all_term _ _ _ _ (term_mask no_mask _ T) D) as T1. unfold deliver_all in D. destruct (same order _); [|discriminate]. injection D as <-.
    pose proof (fold_frame c order (set_mask no_mask s)) as Fr. set (s2 := fold_left (deliver1 c) order (set_mask no_mask s)) in *.
    destruct (over (say TOpen s2)) eqn:O; [exact T1|]. apply (term_same _ _ T1); try reflexivity; [left; reflexivity|]. cbn [s_pc set_pc say].
    destruct (frame_over _ _ Fr O) as [_ E]. rewrite E. cbn [s_pc set_mask]. rewrite Epc. right. right. split; [reflexivity|discriminate].
  - destruct (s_term s) as [h|] eqn:Et; [|discriminate]. injection H as <-.
    destruct (t_term _ T h Et) as [Th Ah]. pose proof (deliver_term c h s T (or_introl Ah)) as T1. unfold goto.
    destruct (over (deliver c h s)) eqn:O; [exact T1|].
    assert (En : ending s) by (apply (t_two _ T); rewrite Epc; reflexivity). destruct En as (g & Tg & Ag & Cl & F).
    pose proof (f_trace _ _ (deliver_frame c h s)) as Tr.
    assert (N : g <> h).
    { intros <-. unfold deliver in O. assert (Os : over s = false) by (unfold over; rewrite Epc; reflexivity). rewrite Os, F, sig_eqb_refl in O.
      assert (Kl : kills g = true) by (destruct Tg as [->|[->| ->]]; reflexivity). rewrite Kl in O. discriminate. }
    destruct T1 as [H1 H2 H3 H4 H5 H6 H7 H8]. constructor; try assumption; try discriminate. cbn [s_pc set_pc s_trace]. rewrite Tr. intros n [= <-].
    split; [reflexivity|]. split; [exact Cl|]. exists g, h. unfold arr. cbn [s_trace set_pc]. rewrite Tr. repeat (split; [assumption|]). assumption.
Qed.

Lemma step_term : forall c s e s', basic c s -> term_ok s -> step c s e = Some s' -> term_ok s'.
Proof.
  intros c s e s' B T H. unfold step in H. destruct (over s) eqn:O; [discriminate|].
  assert (Sy : forall x, x <> TCleanup -> term_ok (say x s)) by (intros x N; apply (term_same _ _ T); try reflexivity; [right; exists x; split; [reflexivity|exact N]|left; reflexivity]).
  assert (Sm : forall s2, s_disp s2 = s_disp s -> s_pending s2 = s_pending s -> s_term s2 = s_term s -> s_trace s2 = s_trace s -> s_pc s2 = s_pc s -> term_ok s2).
  { intros s2 E1 E2 E3 E4 E5. apply (term_same s); try assumption; left; assumption. }
  destruct e.
  - injection H as <-. apply generate_term; [apply Sy; discriminate|left; left; reflexivity].
  - destruct (find_kid pid (s_kids s)) as [k|]; [|discriminate]. destruct (k_ended k); [discriminate|]. injection H as <-.
    apply generate_term; [|right; reflexivity]. apply (term_same _ _ T); try reflexivity; [right; eexists; split; [reflexivity|discriminate]|left; reflexivity].
  - destruct (known pid s); [discriminate|]. injection H as <-. apply Sm; reflexivity.
  - destruct (find_kid pid (s_kids s)) as [[p [|] [|]]|]; try discriminate. injection H as <-. apply Sm; reflexivity.
  - injection H as <-. rewrite wake_eq. apply (term_same (set_pc (wake (s_pc s)) s)).
    + apply (term_same _ _ T); try reflexivity; [left; reflexivity|]. cbn [s_pc set_pc]. destruct (s_pc s); cbn [wake]; auto.
    + apply (enqueue_frame c).
    + unfold enqueue. destruct (_ <? _)%nat; reflexivity.
    + unfold enqueue. destruct (_ <? _)%nat; reflexivity.
    + left. apply (enqueue_frame c).
    + left. unfold enqueue. destruct (_ <? _)%nat; reflexivity.
  - destruct (s_forked s); [discriminate|]. destruct (known pid s || _); [discriminate|]. injection H as <-.
    apply (term_same _ _ T); try reflexivity; [right; eexists; split; [reflexivity|discriminate]|left; reflexivity].
  - destruct (s_forked s); [|discriminate]. injection H as <-. apply Sm; reflexivity.
  - destruct (s_forked s); [discriminate|]. exact (next_term _ _ _ _ _ B T H).
Qed.
Lemma run_term : forall c s, run c s -> term_ok s.
Proof.
  intros c s H. induction H as [|s e s' H IH E]; [|exact (step_term c s e s' (run_basic c s H) IH E)].
  constructor; try discriminate; [left; intros g; reflexivity|intros g []|intros []].
Qed.
