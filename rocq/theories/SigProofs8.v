(** The statements on signals and children *)
From Coq Require Import Lia ZifyBool ZifyNat ZifyN.
From Verif Require Import Base SigModel SigSpec SigProofs SigProofs2 SigProofs3 SigProofs4 SigProofs5 SigProofs6 SigProofs7.

Lemma history_split : forall s a b, history s = a ++ b -> s_trace s = rev b ++ rev a.
Proof. intros s a b H. unfold history in H. rewrite <- (rev_involutive (s_trace s)), H. apply rev_app_distr. Qed.

Lemma run_served : forall c s, run c s -> served (history s).
Proof.
  intros c s H g r a b d e Q E. destruct Q.
  - destruct (run_requests true c s H) as [[G _] _]. eapply (good_served _ _ _ _ _ G); exact E. Unshelve. all: discriminate.
  - destruct (run_requests false c s H) as [[G _] _]. eapply (good_served _ _ _ _ _ G); exact E. Unshelve. all: discriminate.
Qed.
Lemma run_reaped : forall c s, run c s -> reaped (history s).
Proof.
  intros c s H pid a b d e E. destruct (run_reap c s H) as [G _]. eapply (good_served _ _ _ _ _ (G pid)); exact E. Unshelve. all: discriminate.
Qed.
Lemma run_stops : forall c s, run c s -> stops (history s).
Proof.
  intros c s H g a b d T E X. apply in_split in X as (d1 & d2 & ->). destruct (run_stop c s H) as [G _]. destruct (G g) as [Y|Y]; [|contradiction].
  assert (Z : In TWaitError (b ++ d1)) by (eapply (good_served _ _ _ _ _ Y); exact E). Unshelve. all: try discriminate.
  apply (k_fine _ (run_kids c s H)). apply in_rev. fold (history s). rewrite E. apply in_or_app. right. right. apply in_app_or in Z. apply in_or_app.
  destruct Z as [Z|Z]; [left; exact Z|right; right; apply in_or_app; left; exact Z].
Qed.
Lemma run_waits : forall c s, run c s -> ~ In TWaitError (history s).
Proof. intros c s H X. apply in_rev in X. exact (k_fine _ (run_kids c s H) X). Qed.

Lemma count_rev : forall x l, count_occ tev_eq_dec (rev l) x = count_occ tev_eq_dec l x.
Proof.
  intros x l. induction l as [|y l IH]; [reflexivity|]. cbn [rev]. rewrite count_occ_app, IH. cbn [count_occ]. destruct (tev_eq_dec y x); lia.
Qed.
Lemma run_asked : forall c s, run c s -> asked (history s).
Proof.
  intros c s H. split; [|split].
  - intros g r a b Q E. apply history_split in E. destruct (run_prefix c s H _ _ E) as (s0 & H0 & E0).
    assert (X : forall bo, (count_occ tev_eq_dec a (rdone bo) <= count_occ tev_eq_dec a (TArrive (rsig bo)))%nat).
    { intros bo. destruct (run_requests bo c s0 H0) as [[_ N] _]. rewrite E0, !count_rev in N. exact N. }
    destruct Q; [exact (X true)|exact (X false)].
  - intros a b E. change (TCleanup :: b) with ([TCleanup] ++ b) in E. rewrite app_assoc in E. apply history_split in E. rewrite rev_app_distr in E.
    destruct (run_prefix c s H _ _ E) as (s0 & H0 & E0). destruct (t_clean _ (run_term c s0 H0)) as (g & T & A); [rewrite E0; left; reflexivity|].
    exists g. split; [exact T|]. unfold arr in A. rewrite E0 in A. destruct A as [A|A]; [discriminate|]. apply in_rev. exact A.
  - intros pid a b E. change (TReaped pid :: b) with ([TReaped pid] ++ b) in E. rewrite app_assoc in E. apply history_split in E. rewrite rev_app_distr in E.
    destruct (run_prefix c s H _ _ E) as (s0 & H0 & E0). pose proof (k_order _ (run_kids c s0 H0) pid) as O. rewrite E0 in O. cbn [rev app] in O. destruct O as (O & _ & _ & P).
    destruct (phase2_split pid (rev a) O (P eq_refl)) as (x & y & z & Ea & N). exists (rev z), (rev y), (rev x). split.
    + rewrite <- (rev_involutive a), Ea. repeat (rewrite rev_app_distr; cbn [rev]). rewrite <- !app_assoc. reflexivity.
    + intros I. apply N. apply in_or_app. apply in_app_or in I as [I|I]; apply in_rev in I; [right|left]; exact I.
Qed.

Lemma run_sleep : forall c s, run c s -> (c_epoll c = false -> (0 < c_cap c)%nat) -> s_pc s = PSleep -> ~ outstanding s.
Proof.
  intros c s H Cap E X. assert (F : fin (s_pc s) = false) by (rewrite E; reflexivity). pose proof (run_basic c s H F) as L.
  destruct (run_reap c s H) as [_ R]. specialize (R F).
  assert (Sp : s_pending s = []) by (pose proof (l_sleep _ _ L E) as Y; destruct (c_epoll c) eqn:Ce; [exact Y|apply (l_pend _ _ L Ce); rewrite E; reflexivity]).
  assert (Fl : ~ flagged s).
  { intros Y. pose proof (l_sleep _ _ L E) as Z. destruct (c_epoll c) eqn:Ce.
    - pose proof (l_flags _ _ L) as W. unfold flags in W. rewrite E in W. destruct (W Ce) as ((W1 & W2 & W3) & W4). unfold flagged in Y. destruct Y as [Y|[Y|[Y|Y]]]; congruence.
    - pose proof (l_queue _ _ L Ce (Cap eq_refl)) as Q. rewrite E in Q. specialize (Q eq_refl Y). lia. }
  unfold flagged in Fl. destruct X as [[g X]|[X|[X|[X|[X|(k & K1 & K2 & K3)]]]]]; try (apply Fl; tauto); [rewrite Sp in X; contradiction|].
  destruct k as [pid as_ en]. cbn [k_async k_ended] in *. subst. destruct (r_ended _ R pid K1) as [Y|[Y|(i & Y & _)]]; [rewrite Sp in Y; contradiction|apply Fl; tauto|congruence].
Qed.

Lemma run_ignored : forall c s g, run c s -> over s = false -> ignored g -> step c s (EArrive g) = Some (say (TArrive g) s).
Proof.
  intros c s g H O I. unfold step. rewrite O. f_equal. unfold generate. cbn [s_disp say].
  assert (D : init_disp g = Ign) by (destruct I as [->|[->|[->| ->]]]; reflexivity).
  assert (D2 : s_disp s g = Ign); [|rewrite D2; reflexivity].
  destruct (t_disp _ (run_term c s H)) as [P|(g0 & T & _ & _ & F)]; [rewrite (P g); exact D|]. rewrite F. destruct (sig_eqb g g0) eqn:E; [|exact D].
  apply sig_eqb_eq in E. subst g0. rewrite (terminating_handled g T) in D. discriminate.
Qed.

Lemma run_deferred : forall c s g s', run c s -> ~ waiting (s_pc s) -> ~ fault g -> step c s (EArrive g) = Some s' ->
  s' = set_pending (s_pending s') (say (TArrive g) s) /\ (In g (s_pending s') <-> In g (s_pending s) \/ init_disp g <> Ign).
Proof.
  intros c s g s' H W Fg E. unfold step in E. destruct (over s) eqn:O; [discriminate|]. injection E as <-.
  assert (F : fin (s_pc s) = false) by (unfold over in O; destruct (s_pc s); try reflexivity; try discriminate; exfalso; apply W; exact I).
  pose proof (run_basic c s H F) as L.
  assert (U : unblocked (s_pc s) = false) by (destruct (s_pc s); try reflexivity; exfalso; apply W; exact I).
  assert (M : s_mask s g = true) by (rewrite (l_mask _ _ L), U; destruct g; try reflexivity; exfalso; apply Fg; unfold fault; tauto).
  unfold generate. cbn [s_disp say s_mask s_pc s_pending]. rewrite (l_plain _ _ L g), M. cbn [orb].
  assert (Ns : forall x : st, match s_pc s with PSleep => set_pc PWait x | _ => x end = x) by (intros x; destruct (s_pc s); try reflexivity; discriminate U).
  destruct (member g (s_pending s)) eqn:Mb.
  - apply member_in in Mb. destruct (init_disp g) eqn:D; cbv zeta; cbn [s_pc say set_pending]; rewrite ?Ns; (split; [reflexivity|]); split; intros X; try exact Mb; left; exact Mb.
  - destruct (init_disp g) eqn:D; cbv zeta; cbn [s_pc say set_pending s_pending]; rewrite ?Ns; (split; [reflexivity|]); cbn [s_pending set_pending say]; rewrite ?in_app_iff; split; intros X.
    + right. discriminate.
    + right. left. reflexivity.
    + left. exact X.
    + destruct X as [X|X]; [exact X|contradiction].
    + right. discriminate.
    + right. left. reflexivity.
Qed.

Lemma run_ends : forall c s, run c s ->
  (forall g, s_pc s = PDead g -> In (TArrive g) (history s) /\ ((terminating g /\ In TCleanup (history s)) \/ unhandled g)) /\
  (forall n, s_pc s = PExit n -> n = 255%N /\ In TCleanup (history s) /\
     exists g h, g <> h /\ terminating g /\ terminating h /\ In (TArrive g) (history s) /\ In (TArrive h) (history s)).
Proof.
  intros c s H. pose proof (run_term c s H) as T. unfold history. split.
  - intros g E. destruct (t_dead _ T g E) as [A [[B D]|B]]; (split; [apply -> in_rev; exact A|]); [left; split; [exact B|apply -> in_rev; exact D]|right; exact B].
  - intros n E. destruct (t_exit _ T n E) as (A & B & g & h & C1 & C2 & C3 & C4 & C5). split; [exact A|]. split; [apply -> in_rev; exact B|].
    exists g, h. repeat (split; [assumption|]). split; apply -> in_rev; assumption.
Qed.

(** *** Without epoll, signals are let through in every iteration *)
Fixpoint last_iter (t : list tev) : bool := match t with [] => false | TIter :: _ => true | TOpen :: _ => false | _ :: t => last_iter t end.
Fixpoint iter_ok (t : list tev) : Prop := match t with [] => True | x :: t => iter_ok t /\ (x = TIter -> last_iter t = false) end.
Definition early (p : pc) : Prop := p = PTasks \/ p = PPoll.
Definition open_state (s : st) : Prop := iter_ok (s_trace s) /\ (over s = false -> last_iter (s_trace s) = true -> early (s_pc s)).

Lemma open_same : forall s s', open_state s -> over s = false -> (s_trace s' = s_trace s \/ exists x, s_trace s' = x :: s_trace s /\ x <> TIter) ->
  (over s' = false -> early (s_pc s) -> early (s_pc s')) -> open_state s'.
Proof.
  intros s s' [G R] O Tr Pc. assert (L : last_iter (s_trace s') = true -> last_iter (s_trace s) = true).
  { intros X. destruct Tr as [Tr|(x & Tr & N)]; rewrite Tr in X; [exact X|]. destruct x; try exact X; [contradiction|discriminate]. }
  split; [destruct Tr as [->|(x & -> & N)]; [exact G|split; [exact G|contradiction]]|]. intros O2 X. apply Pc; [exact O2|]. exact (R O (L X)).
Qed.
Lemma gen_pc : forall c g s, over (generate c g s) = false -> early (s_pc s) -> early (s_pc (generate c g s)).
Proof. intros c g s O H. destruct (generate_kids c g s) as (_ & _ & _ & G). destruct (G O) as [-> | ->]; [|exact H]. destruct H as [-> | ->]; [left|right]; reflexivity. Qed.
Lemma opened_state : forall s t, s_trace s = TOpen :: t -> iter_ok t -> open_state s.
Proof. intros s t E G. split; [rewrite E; split; [exact G|discriminate]|]. intros _. rewrite E. discriminate. Qed.
Lemma next_open : forall c order w s s', c_epoll c = false -> open_state s -> next c order w s = Some s' -> open_state s'.
Proof.
  intros c order w s s' Ce [G R] H. assert (O : over s = false) by (unfold over; unfold next in H; destruct (s_pc s); try reflexivity; discriminate).
  assert (Sm : forall s2, (s_pc s <> PTasks /\ s_pc s <> PPoll) -> (s_trace s2 = s_trace s \/ exists x, s_trace s2 = x :: s_trace s /\ x <> TIter) -> open_state s2).
  { intros s2 [N1 N2] E. apply (open_same s); [split; assumption|exact O|exact E|]. intros _ [X|X]; contradiction. }
  assert (Wt : forall s1, s_trace s1 = s_trace s -> (s_pc s <> PTasks /\ s_pc s <> PPoll) -> wait_step c order w s1 = Some s' -> open_state s').
  { intros s1 E1 N X. apply (Sm _ N). destruct (wait_trace _ _ _ _ _ X) as [E|E]; rewrite E, E1; [left; reflexivity|right; exists TOpen; split; [reflexivity|discriminate]]. }
  unfold next in H. destruct (s_pc s) eqn:Epc; try discriminate;
    try (injection H as <-; apply Sm; [split; discriminate|left; reflexivity]).
  - destruct (s_term s); injection H as <-.
    + apply Sm; [split; discriminate|right; exists TCleanup; split; [reflexivity|discriminate]].
    + split; [|intros _ _; left; reflexivity]. cbn [s_trace say set_pc iter_ok]. split; [exact G|]. intros _. destruct (last_iter (s_trace s)) eqn:L; [|reflexivity].
      destruct (R O eq_refl) as [X|X]; congruence.
  - injection H as <-. apply (open_same s); [split; [exact G|rewrite Epc; exact R]|exact O|left; reflexivity|]. intros _ _. right. reflexivity.
  - rewrite Ce in H. destruct (deliver_all c order (set_mask no_mask s)) as [s1|] eqn:D; [|discriminate]. injection H as <-.
    apply (opened_state _ (s_trace s)); [rewrite goto_trace; exact (deliver_all_trace _ _ _ _ D)|exact G].
  - apply (Wt s); [reflexivity|split; discriminate|exact H].
  - destruct w; try discriminate; (apply (Wt (set_pc PWait s)); [reflexivity|split; discriminate|exact H]).
  - injection H as <-. apply Sm; [split; discriminate|left; destruct async; reflexivity].
  - destruct (s_reload s); injection H as <-; (apply Sm; [split; discriminate|]); [right; exists TReload; split; [reflexivity|discriminate]|left; reflexivity].
  - destruct (s_reset s); injection H as <-; (apply Sm; [split; discriminate|]); [right; exists TReset; split; [reflexivity|discriminate]|left; reflexivity].
  - destruct (s_child s); injection H as <-; (apply Sm; [split; discriminate|left; reflexivity]).
  - destruct (nth_error (s_pids s) i) as [pid|]; [|injection H as <-; apply Sm; [split; discriminate|left; reflexivity]].
    destruct (find_kid pid (s_kids s)) as [k|]; [|injection H as <-; apply Sm; [split; discriminate|right; exists TWaitError; split; [reflexivity|discriminate]]].
    destruct (k_ended k); injection H as <-; (apply Sm; [split; discriminate|]); [right; exists (TReaped pid); split; [reflexivity|discriminate]|left; reflexivity].
  - destruct (s_term s); [|discriminate]. injection H as <-. apply Sm; [split; discriminate|left; reflexivity].
  - destruct (deliver_all c order (set_mask no_mask s)) as [s1|] eqn:D; [|discriminate]. injection H as <-.
    apply (opened_state _ (s_trace s)); [rewrite goto_trace; exact (deliver_all_trace _ _ _ _ D)|exact G].
  - destruct (s_term s) as [g|]; [|discriminate]. injection H as <-. apply Sm; [split; discriminate|left]. rewrite goto_trace. apply deliver_frame.
Qed.
Lemma step_open : forall c s e s', c_epoll c = false -> open_state s -> step c s e = Some s' -> open_state s'.
Proof.
  intros c s e s' Ce Q H. unfold step in H. destruct (over s) eqn:O; [discriminate|]. destruct e.
  - injection H as <-. apply (open_same s); [exact Q|exact O|right; exists (TArrive g); rewrite generate_trace; split; [reflexivity|discriminate]|].
    intros O2 X. apply gen_pc; assumption.
  - destruct (find_kid pid (s_kids s)) as [k|]; [|discriminate]. destruct (k_ended k); [discriminate|]. injection H as <-.
    apply (open_same s); [exact Q|exact O|right; eexists; rewrite generate_trace; split; [reflexivity|discriminate]|]. intros O2 X. apply gen_pc; assumption.
  - destruct (known pid s); [discriminate|]. injection H as <-. apply (open_same s); [exact Q|exact O|left; reflexivity|tauto].
  - destruct (find_kid pid (s_kids s)) as [[p [|] [|]]|]; try discriminate. injection H as <-. apply (open_same s); [exact Q|exact O|left; reflexivity|tauto].
  - injection H as <-. rewrite wake_eq. apply (open_same s); [exact Q|exact O|left; exact (f_trace _ _ (enqueue_frame c (set_pc (wake (s_pc s)) s)))|].
    intros _ X. destruct (enqueue_rest c (set_pc (wake (s_pc s)) s)) as (E & _). rewrite E. cbn [s_pc set_pc]. destruct X as [-> | ->]; [left|right]; reflexivity.
  - destruct (s_forked s); [discriminate|]. destruct (known pid s || _); [discriminate|]. injection H as <-.
    apply (open_same s); [exact Q|exact O|right; eexists; split; [reflexivity|discriminate]|tauto].
  - destruct (s_forked s); [|discriminate]. injection H as <-. apply (open_same s); [exact Q|exact O|left; reflexivity|tauto].
  - destruct (s_forked s); [discriminate|]. exact (next_open _ _ _ _ _ Ce Q H).
Qed.
Lemma last_iter_in : forall x t, ~ In TOpen x -> last_iter (x ++ TIter :: t) = true.
Proof.
  intros x t. induction x as [|y x IH]; intros N; [reflexivity|]. cbn [app]. assert (X : last_iter (x ++ TIter :: t) = true) by (apply IH; intros Y; apply N; right; exact Y).
  destruct y; try exact X; [reflexivity|]. exfalso. apply N. left. reflexivity.
Qed.
Lemma iter_ok_suffix : forall x y, iter_ok (x ++ TIter :: y) -> last_iter y = false.
Proof. intros x y. induction x as [|w x IH]; cbn [iter_ok app]; intros [G H]; [apply H; reflexivity | apply IH; exact G]. Qed.
Lemma run_opens : forall c s, c_epoll c = false -> run c s -> opens (history s).
Proof.
  intros c s Ce H. assert (Q : open_state s).
  { induction H as [|s e s' H IH E]; [|exact (step_open c s e s' Ce IH E)]. split; [exact I|]. intros _. discriminate. }
  intros a b d E. destruct (in_dec tev_eq_dec TOpen b) as [X|X]; [exact X|]. exfalso.
  assert (E2 : s_trace s = rev d ++ TIter :: (rev b ++ TIter :: rev a)).
  { rewrite <- (rev_involutive (s_trace s)). fold (history s). rewrite E. repeat (rewrite rev_app_distr; cbn [rev]). rewrite <- !app_assoc. reflexivity. }
  destruct Q as [Q _]. rewrite E2 in Q. apply iter_ok_suffix in Q. rewrite last_iter_in in Q; [discriminate|]. intros Y. apply X, in_rev, Y.
Qed.

Lemma ign_ignored : forall g, init_disp g = Ign <-> ignored g.
Proof. intros g. unfold ignored. destruct g; cbn; split; intros H; try discriminate; try reflexivity; try tauto; destruct H as [H|[H|[H|H]]]; discriminate. Qed.
Lemma run_kept : forall c s g s', run c s -> ~ waiting (s_pc s) -> ~ fault g -> step c s (EArrive g) = Some s' ->
  s' = set_pending (s_pending s') (say (TArrive g) s) /\ (In g (s_pending s') <-> In g (s_pending s) \/ ~ ignored g).
Proof.
  intros c s g s' H W F E. destruct (run_deferred c s g s' H W F E) as [A B]. split; [exact A|]. rewrite B, ign_ignored. tauto.
Qed.

(** *** Commands *)
Lemma commands : forall g, command_mask g = false /\ command_disp g <> Handler /\ (command_disp g = Ign <-> ignored g).
Proof.
  intros g. split; [reflexivity|]. unfold command_disp, ignored. split; [destruct g; discriminate|].
  destruct g; cbn; split; intros H; try discriminate; try reflexivity; try tauto; destruct H as [H|[H|[H|H]]]; discriminate.
Qed.

(** *** Counterexamples *)
Lemma run_steps : forall c l s s', run c s -> steps c s l = Some s' -> run c s'.
Proof.
  intros c l. induction l as [|e l IH]; cbn [steps]; intros s s' R H; [injection H as <-; exact R|].
  destruct (step c s e) as [s1|] eqn:E; [|discriminate]. apply (IH s1 s'); [exact (run_step c s e s1 R E)|exact H].
Qed.
Definition goes (n : nat) : list ev := repeat (ENext [] (WTimeout [])) n.

Definition loaded (t : list tev) : st := mk_st PTop init_mask init_disp [SIGTERM] false false false None 0 [] None [] t.
Definition busy : list ev := goes 3 ++ [ENext [] (WReady false [])] ++ goes 4.
Lemma busy_again : forall cap t, steps (mk_conf true cap) (loaded t) busy = Some (loaded (TIter :: t)).
Proof. intros cap t. vm_compute. reflexivity. Qed.
Lemma starved : forall cap n, exists s, run (mk_conf true cap) s /\ over s = false /\ exists h, history s = TArrive SIGTERM :: h /\ count_occ tev_eq_dec h TIter = n.
Proof.
  intros cap n. assert (X : run (mk_conf true cap) (loaded (repeat TIter n ++ [TArrive SIGTERM]))).
  { induction n as [|n IH].
    - apply (run_steps _ [EArrive SIGTERM; ENext [] WSleep] start); [constructor|vm_compute; reflexivity].
    - cbn [repeat app]. exact (run_steps _ _ _ _ IH (busy_again cap _)). }
  eexists. split; [exact X|]. split; [reflexivity|]. exists (repeat TIter n). split.
  - unfold history, loaded. cbn [s_trace]. rewrite rev_app_distr. cbn [rev app]. f_equal. clear X. induction n as [|n IH]; [reflexivity|]. cbn [repeat rev]. rewrite IH. symmetry. apply repeat_cons.
  - clear X. induction n as [|n IH]; [reflexivity|]. cbn [repeat]. rewrite count_occ_cons_eq by reflexivity. rewrite IH. reflexivity.
Qed.

(** A second signal during cleanup *)
Definition twice (first : list ev) : list ev :=
  [EArrive SIGTERM] ++ first ++ [EArrive SIGINT] ++ goes 2 ++ [ENext [SIGINT] (WTimeout [])] ++ goes 1.
Definition to_cleanup (e : bool) : list ev :=
  if e then goes 4 ++ [ENext [SIGTERM] WIntr] ++ goes 4 else goes 3 ++ [ENext [SIGTERM] WIntr] ++ goes 7.
Lemma ends_with : forall c l p, option_map s_pc (steps c start l) = Some p -> exists s, run c s /\ s_pc s = p.
Proof.
  intros c l p H. destruct (steps c start l) as [s|] eqn:E; [|discriminate]. injection H as H. exists s. split; [exact (run_steps _ _ _ _ (run_start _) E)|exact H].
Qed.
Lemma exits : forall e, exists s, run (mk_conf e 4) s /\ s_pc s = PExit 255.
Proof. intros e. apply (ends_with _ (twice (to_cleanup e))). destruct e; vm_compute; reflexivity. Qed.
Lemma happens : forall c l h, option_map history (steps c start l) = Some h -> exists s, run c s /\ history s = h.
Proof.
  intros c l h H. destruct (steps c start l) as [s|] eqn:E; [|discriminate]. injection H as H. exists s. split; [exact (run_steps _ _ _ _ (run_start _) E)|exact H].
Qed.

(** A whole life: a synchronous and an asynchronous child, a reload, termination *)
Definition life (e : bool) : list ev :=
  [EForkSync 7; EEnd 7; EWaitSync 7] ++ goes 2 ++ [EFork 9; EAdd; EArrive SIGHUP] ++ goes 1 ++
  (if e then goes 1 ++ [ENext [SIGHUP; SIGCHLD] WIntr]
   else [ENext [SIGCHLD; SIGHUP] WIntr] ++ goes 1 ++ [ENext [] (WReady true [])] ++ goes 2) ++
  goes 6 ++ goes 2 ++ [EEnd 9; EArrive SIGTERM] ++
  (if e then goes 1 ++ [ENext [SIGTERM; SIGCHLD] WIntr] else [ENext [SIGCHLD; SIGTERM] WIntr] ++ goes 3) ++
  goes 10.
