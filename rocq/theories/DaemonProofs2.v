(** Proofs about going to the background: the theorems. *)
From Verif Require Import Base DaemonModel DaemonSpec DaemonProofs.
Local Open Scope nat_scope.

Theorem parent_result C s n : ordinary C -> reachable C s -> s_parent s = PGone (Some n) ->
  (n = 0%N /\ ready s /\ s_failed s = false) \/ (n = 1%N /\ (s_failed s = true \/ lost s)).
Proof.
  intros O R P. destruct (reachable_inv C O s R) as [k I]. pose proof (ready_iff k s I) as RI.
  destruct (i_result k s I n P) as [(A & B & F)|(A & [F|(B & D)])].
  - left. split; [exact A|]. split; [apply RI; exact B|exact F].
  - right. split; [exact A|left; exact F].
  - right. split; [exact A|right]. split; [|intros X; apply RI in X; lia]. destruct D as [D|[D E]]; [left; exact D|right; split; [exact D|right; exact E]].
Qed.
Theorem child_waited C s n : ordinary C -> reachable C s -> s_parent s = PGone (Some n) -> s_failed s = false -> s_child s = CReaped.
Proof. intros O R. destruct (reachable_inv C O s R) as [k I]. exact (i_waited k s I n). Qed.

Lemma In_nth {A} (x : A) l : In x l -> exists i, nth_error l i = Some x.
Proof. exact (In_nth_error l x). Qed.

Theorem not_stuck C s : ordinary C -> reachable C s -> (forall st, s_parent s <> PGone st) -> exists e s', succeeds e = true /\ step C e s = Some s'.
Proof.
  intros O R N. destruct (reachable_inv C O s R) as [k I]. destruct I as [IK IP IC ID IDA IPI IT IU IH IR IF IW].
  destruct (s_parent s) eqn:P; try (exists (EParent true); eexists; split; [reflexivity|]; cbn [step]; unfold parent_step; rewrite P; reflexivity).
  - destruct IP as (PE & N1 & N2). destruct (s_child s) eqn:Ch; try congruence;
      try (exists (EChild true); eexists; split; [reflexivity|]; cbn [step]; unfold child_step; rewrite Ch; reflexivity).
    exists (EParent true). eexists. split; [reflexivity|]. cbn [step]. unfold parent_step. rewrite P, Ch. reflexivity.
  - destruct IP as (PE & Ch). destruct (s_pipe s) as [|b r] eqn:PI.
    + destruct (writers s) eqn:W.
      * unfold writers, all_ends in W. rewrite PE, Ch in *. cbn in W. rewrite IC in W. cbn in W. apply orb_true_iff in W. destruct W as [W|W].
        -- destruct (s_daemon s) as [|todo| |] eqn:D.
           ++ destruct IDA as [X _]. rewrite X in W. discriminate.
           ++ destruct IDA as (T & K & _). destruct todo as [|j todo]; [exfalso; clear - T K; do 24 (destruct k as [|k]; [discriminate T|]); lia|].
              exists (EDaemon true). assert (RD : readers s = true) by (unfold readers, all_ends; rewrite PE; reflexivity).
              cbn [step]. unfold daemon_step. rewrite D, RD. destruct j; eexists; (split; [reflexivity|reflexivity]).
           ++ destruct IDA as (_ & X & _). congruence.
           ++ destruct IDA as [X _]. rewrite X in W. discriminate.
        -- apply existsb_exists in W. destruct W as (e & J & W). apply in_map_iff in J. destruct J as ([h e'] & <- & J). cbn in W.
           pose proof (IH h e' J) as X. destruct h; try (rewrite X in W; discriminate W). apply In_nth in J. destruct J as [i J].
           exists (EHelper i). eexists. split; [reflexivity|]. cbn [step]. rewrite J. reflexivity.
      * exists (EParent true). eexists. split; [reflexivity|]. cbn [step]. unfold parent_step. rewrite P, PI, W. reflexivity.
    + exists (EParent true). eexists. split; [reflexivity|]. cbn [step]. unfold parent_step. rewrite P, PI. reflexivity.
  - destruct (N status eq_refl).
Qed.

(** Every call brings the processes closer to the end *)
Definition prank (p : parent) : nat := match p with PPipe => 83 | PFork => 82 | PClose => 3 | PWait => 2 | PRead => 1 | PGone _ => 0 end.
Definition crank (c : child) : nat := match c with CClose => 76 | CSetsid => 75 | CFork => 74 | CLeave => 1 | _ => 0 end.
Definition drank (d : daemon) : nat := match d with DInit todo => 3 * List.length todo | _ => 0 end.
Fixpoint hrank (l : list (helper * ends)) : nat := match l with [] => 0 | (h, _) :: r => (match h with HNew => 1 | _ => 0 end) + hrank r end.
Definition rank (s : state) : nat := prank (s_parent s) + crank (s_child s) + drank (s_daemon s) + hrank (s_helpers s).

Lemma hrank_update l : forall i h e h' e', nth_error l i = Some (h, e) -> hrank (update l i (h', e')) + (match h with HNew => 1 | _ => 0 end) = hrank l + (match h' with HNew => 1 | _ => 0 end).
Proof.
  induction l as [|x l IH]; intros i h e h' e' H; [destruct i; discriminate H|]. destruct i as [|i]; cbn in H.
  - injection H as ->. cbn. lia.
  - specialize (IH i h e h' e' H). destruct x as [hx ex]. cbn. lia.
Qed.
Lemma hrank_app a b : hrank (a ++ b) = hrank a + hrank b.
Proof. induction a as [|[h e] a IH]; [reflexivity|]. cbn. rewrite IH. lia. Qed.

Lemma step_rank C e s s' : step C e s = Some s' ->
  (if own e then 1 else 0) + rank s' <= rank s.
Proof.
  intros H. destruct s as [p pe c ce cs d de ds hs pi dn fl cf]. destruct e as [ok|ok|ok|t|t|i|i t|i| | |]; cbn [step own] in *.
  - unfold parent_step in H. cbn in *. destruct p; try discriminate; destruct ok; try (injection H as <-; unfold rank; cbn; lia).
    + destruct c; try discriminate. injection H as <-. unfold rank. cbn. lia.
    + destruct pi; [|injection H as <-; unfold rank; cbn; lia]. match type of H with (if ?w then _ else _) = _ => destruct w end; [discriminate|]. injection H as <-. unfold rank. cbn. lia.
  - unfold child_step in H. cbn in *. destruct c; try discriminate; destruct ok; try discriminate; injection H as <-; unfold rank; cbn; lia.
  - unfold daemon_step in H. cbn in *. destruct d as [|[|j r]| |]; try discriminate. destruct ok; [|injection H as <-; unfold rank; cbn; lia].
    assert (X : drank (match r with [] => DUp | _ => DInit r end) <= 3 * List.length r) by (destruct r; cbn; lia).
    destruct j; try (injection H as <-; unfold rank; cbn in *; lia).
    + destruct (pre_up C); injection H as <-; unfold rank; cbn in *; rewrite ?hrank_app; cbn; lia.
    + match type of H with (if ?w then _ else _) = _ => destruct w end; [|discriminate]. injection H as <-. unfold rank. cbn in *. lia.
    + destruct (on_up C); injection H as <-; unfold rank; cbn in *; rewrite ?hrank_app; cbn; lia.
  - cbn in *. unfold stderr in H. destruct d; try discriminate; match type of H with context [if ?w then _ else _] => destruct w end; injection H as <-; apply Nat.le_refl.
  - cbn in *. unfold stderr in H. destruct c; try discriminate; match type of H with context [if ?w then _ else _] => destruct w end; injection H as <-; apply Nat.le_refl.
  - cbn in *. destruct (nth_error hs i) as [[[] e]|] eqn:NX; try discriminate. injection H as <-. unfold rank. cbn. pose proof (hrank_update hs i HNew e HRun (close_all C e) NX) as X. cbv iota in X. lia.
  - cbn in *. destruct (nth_error hs i) as [[[] e]|]; try discriminate. match type of H with (if ?w then _ else _) = _ => destruct w end; [|discriminate]. injection H as <-. unfold rank. cbn. lia.
  - cbn in *. destruct (nth_error hs i) as [[h e]|] eqn:NX; [|discriminate]. pose proof (hrank_update hs i h e HGone none NX) as X.
    destruct h; try discriminate; cbv iota in X; injection H as <-; unfold rank; cbn; lia.
  - cbn in *. destruct p; try discriminate; injection H as <-; unfold rank; cbn; lia.
  - cbn in *. destruct c; try discriminate; injection H as <-; unfold rank; cbn; lia.
  - cbn in *. destruct d as [|todo| |]; try discriminate; injection H as <-; unfold rank; cbn; lia.
Qed.

Lemma run_rank C l : forall s s', run C l s = Some s' -> List.length (filter own l) + rank s' <= rank s.
Proof.
  induction l as [|e l IH]; intros s s' H; cbn [run] in H; [injection H as <-; cbn; lia|].
  destruct (step C e s) as [s1|] eqn:S; [|discriminate]. pose proof (IH s1 s' H) as X. assert (Y : (if own e then 1 else 0) + rank s1 <= rank s) by exact (step_rank C e s s1 S).
  cbn [filter]. destruct (own e); cbn [List.length]; lia.
Qed.
Theorem few_calls C l s : run C l start = Some s -> List.length (filter own l) <= 83.
Proof. intros H. pose proof (run_rank C l start s H) as X. cbn in X. lia. Qed.

(** Sessions *)
Lemma session_step C e s s' : (s_child s = CFork -> s_csession s = Child) /\ (s_daemon s <> DNone -> s_dsession s = Child) -> e <> EChild false -> step C e s = Some s' ->
  (s_child s' = CFork -> s_csession s' = Child) /\ (s_daemon s' <> DNone -> s_dsession s' = Child).
Proof.
  intros [A B] N H. destruct s as [p pe c ce cs d de ds hs pi dn fl cf]. destruct e as [ok|ok|ok|t|t|i|i t|i| | |]; cbn [step] in *.
  - unfold parent_step in H. cbn in *. destruct p; try discriminate; destruct ok; try (injection H as <-; cbn; split; (assumption || discriminate)).
    + destruct c; try discriminate. injection H as <-. cbn. split; [discriminate|assumption].
    + destruct pi; [|injection H as <-; cbn; split; assumption]. match type of H with (if ?w then _ else _) = _ => destruct w end; [discriminate|]. injection H as <-. cbn. split; assumption.
  - destruct ok; [|congruence]. unfold child_step in H. cbn in *. destruct c; try discriminate; injection H as <-; cbn; split; try assumption; try discriminate; intros; try reflexivity. apply A. reflexivity.
  - unfold daemon_step in H. cbn in *. destruct d as [|[|j r]| |]; try discriminate.
    assert (B' : ds = Child) by (apply B; discriminate).
    destruct ok; [|injection H as <-; cbn; split; [assumption|intros _; exact B']].
    destruct j; try (injection H as <-; cbn; split; [assumption|intros _; exact B']).
    + destruct (pre_up C); injection H as <-; cbn; (split; [assumption|intros _; exact B']).
    + match type of H with (if ?w then _ else _) = _ => destruct w end; [|discriminate]. injection H as <-; cbn; (split; [assumption|intros _; exact B']).
    + destruct (on_up C); injection H as <-; cbn; (split; [assumption|intros _; exact B']).
  - cbn in *. unfold stderr in H. destruct d; try discriminate; match type of H with context [if ?w then _ else _] => destruct w end; injection H as <-; cbn; split; assumption.
  - cbn in *. unfold stderr in H. destruct c; try discriminate; match type of H with context [if ?w then _ else _] => destruct w end; injection H as <-; cbn; split; assumption || discriminate.
  - cbn in *. destruct (nth_error hs i) as [[[] e]|]; try discriminate. injection H as <-. split; assumption.
  - cbn in *. destruct (nth_error hs i) as [[[] e]|]; try discriminate. match type of H with (if ?w then _ else _) = _ => destruct w end; [|discriminate]. injection H as <-. split; assumption.
  - cbn in *. destruct (nth_error hs i) as [[h e]|]; [|discriminate]. destruct h; try discriminate; injection H as <-; split; assumption.
  - cbn in *. destruct p; try discriminate; injection H as <-; split; assumption.
  - cbn in *. destruct c; try discriminate; injection H as <-; cbn; (split; [discriminate|assumption]).
  - cbn in *. destruct d as [|todo| |]; try discriminate; injection H as <-; cbn; (split; [assumption|intros _; apply B; discriminate]).
Qed.
Theorem detached C l s : ordinary C -> run C l start = Some s -> s_daemon s <> DNone -> s_dsession s <> Daemon /\ (~ In (EChild false) l -> s_dsession s = Child).
Proof.
  intros O H D. split.
  - destruct (run_inv C O l start s 0 inv_start H) as (k & I & _). pose proof (i_daemon k s I) as X. destruct (s_daemon s); intuition congruence.
  - intros N. assert (G : forall l s0, ~ In (EChild false) l -> run C l s0 = Some s -> (s_child s0 = CFork -> s_csession s0 = Child) /\ (s_daemon s0 <> DNone -> s_dsession s0 = Child) -> s_dsession s = Child).
    { clear l H N. induction l as [|e l IH]; intros s0 N H G; cbn [run] in H; [injection H as <-; apply G; exact D|].
      destruct (step C e s0) as [s1|] eqn:S; [|discriminate]. apply (IH s1); [intros J; apply N; right; exact J|exact H|].
      apply (session_step C e s0 s1 G); [intros ->; apply N; left; reflexivity|exact S]. }
    apply (G l start N H). split; [discriminate|]. intros X. destruct (X eq_refl).
Qed.

Theorem nothing_inherited C s e : ordinary C -> reachable C s -> In (HRun, e) (s_helpers s) -> e = none.
Proof. intros O R J. destruct (reachable_inv C O s R) as [k I]. exact (i_helpers k s I HRun e J). Qed.
