(** Proofs about going to the background. *)
From Verif Require Import Base DaemonModel DaemonSpec.
Local Open Scope nat_scope.

Definition gone (p : parent) : bool := match p with PGone _ => true | _ => false end.
(** [k]: how many jobs are done *)
Record inv (k : nat) (s : state) : Prop := {
  i_k : k <= 24;
  i_parent : match s_parent s with
             | PPipe => s_pends s = none /\ s_child s = CNone
             | PFork => s_pends s = Ends true true /\ s_child s = CNone
             | PClose => s_pends s = Ends true true /\ s_child s <> CNone /\ s_child s <> CReaped
             | PWait => s_pends s = Ends true false /\ s_child s <> CNone /\ s_child s <> CReaped
             | PRead => s_pends s = Ends true false /\ s_child s = CReaped
             | PGone _ => s_pends s = none
             end;
  i_child : match s_child s with
            | CNone => s_cends s = none /\ s_daemon s = DNone /\ s_csession s = Login
            | CClose => e_w (s_cends s) = true /\ s_daemon s = DNone /\ s_csession s = Login
            | CSetsid => e_w (s_cends s) = true /\ s_daemon s = DNone /\ s_csession s = Login
            | CFork => e_w (s_cends s) = true /\ s_daemon s = DNone /\ s_csession s <> Daemon
            | CLeave => s_daemon s <> DNone
            | CZombie | CReaped => s_cends s = none
            end;
  i_done : s_done s = rev (firstn k jobs);
  i_daemon : match s_daemon s with
             | DNone => s_dends s = none /\ k = 0 /\ s_helpers s = []
             | DInit todo => todo = skipn k jobs /\ k < 24 /\ e_w (s_dends s) = (k <=? 17) /\ s_dsession s <> Daemon
             | DUp => k = 24 /\ e_w (s_dends s) = false /\ s_dsession s <> Daemon
             | DGone => s_dends s = none /\ s_dsession s <> Daemon
             end;
  i_pipe : s_pipe s = [] \/ s_pipe s = [0%N];
  i_told : 17 <= k -> gone (s_parent s) = false -> s_pipe s = [0%N];
  i_untold : k < 17 -> s_pipe s = [];
  i_helpers : forall h e, In (h, e) (s_helpers s) -> match h with HNew => True | _ => e = none end;
  i_result : forall n, s_parent s = PGone (Some n) ->
    (n = 0%N /\ 17 <= k /\ s_failed s = false) \/ (n = 1%N /\ (s_failed s = true \/
       (k < 17 /\ (s_daemon s = DGone \/ (s_daemon s = DNone /\ s_child s = CReaped)))));
  i_failed : s_failed s = true -> s_parent s = PGone (Some 1%N);
  i_waited : forall n, s_parent s = PGone (Some n) -> s_failed s = false -> s_child s = CReaped }.

Lemma inv_start : inv 0 start.
Proof. constructor; cbn; try lia; try discriminate; try tauto. Qed.

Section Steps.
Variable C : setup.
Hypothesis O : ordinary C.

Lemma close_all_none e : close_all C e = none.
Proof.
  unfold close_all, closed. destruct O as [[O1 O2] [O3 O4]].
  rewrite (proj2 (N.leb_le _ _) O1), (proj2 (N.ltb_lt _ _) O2), (proj2 (N.leb_le _ _) O3), (proj2 (N.ltb_lt _ _) O4). cbn. rewrite !andb_false_r. reflexivity.
Qed.
Lemma stderr_same e t s : stderr C e t s = s.
Proof. unfold stderr. destruct (N.eqb_spec (wfd C) 2) as [X|_]; [|reflexivity]. destruct O as [_ [X2 _]]. rewrite X in X2. lia. Qed.
Lemma in_update {A} (l : list A) : forall i x y, In y (update l i x) -> y = x \/ In y l.
Proof.
  induction l as [|z l IH]; intros i x y I; [destruct i; destruct I|]. destruct i as [|i]; cbn [update] in I.
  - destruct I as [<-|I]; [left; reflexivity|right; right; exact I].
  - destruct I as [<-|I]; [right; left; reflexivity|]. destruct (IH _ _ _ I) as [X|X]; [left; exact X|right; right; exact X].
Qed.

Ltac done := try lia; try discriminate; try congruence; try tauto; try (intuition (try congruence; try discriminate; try lia; eauto); fail).
Ltac destruct_p := match goal with |- match ?p with PPipe => _ | _ => _ end => destruct p; intuition congruence end.

Lemma parent_inv k ok s s' : inv k s -> parent_step ok s = Some s' -> inv k s'.
Proof.
  intros I H. destruct I as [IK IP IC ID IDA IPI IT IU IH IR IF IW]. destruct s as [p pe c ce cs d de ds hs pi dn fl cf]. unfold parent_step in H. cbn in *.
  destruct p; cbn in *; try discriminate.
  - destruct ok; injection H as <-; constructor; cbn; done. 
  - destruct IP as [-> ->]. destruct IC as (-> & -> & ->). destruct ok; injection H as <-; constructor; cbn; done.
  - destruct IP as (-> & N1 & N2). destruct ok; injection H as <-; constructor; cbn; done.
  - destruct IP as (-> & N1 & N2). destruct ok; [|injection H as <-; constructor; cbn; done].
    destruct c; try discriminate; injection H as <-; constructor; cbn; done.
  - destruct IP as (-> & ->). destruct ok; [|injection H as <-; constructor; cbn; done].
    destruct pi as [|st r].
    + match type of H with (if ?w then _ else _) = _ => destruct w eqn:W end; [discriminate|]. injection H as <-. unfold writers, all_ends in W. cbn in W.
      assert (K : k < 17) by (destruct (Nat.lt_ge_cases k 17) as [K|K]; [exact K|discriminate (IT K eq_refl)]).
      assert (DD : d = DGone \/ d = DNone).
      { destruct d as [|todo| |]; [right; reflexivity| | |left; reflexivity].
        - destruct IDA as (_ & _ & X & _). rewrite X in W. rewrite (proj2 (Nat.leb_le k 17)) in W by lia. cbn in W. rewrite ?orb_true_r in W. discriminate.
        - destruct IDA as (X & _). lia. }
      constructor; cbn; done.
    + assert (X : st = 0%N /\ r = []) by (destruct IPI as [X|X]; [discriminate|injection X; auto]). destruct X as [-> ->]. injection H as <-.
      assert (K : 17 <= k) by (destruct (Nat.lt_ge_cases k 17) as [K|K]; [discriminate (IU K)|exact K]).
      assert (FL : fl = false) by (destruct fl; [specialize (IF eq_refl); discriminate|reflexivity]).
      constructor; cbn; done.
Qed.

Ltac fin NG NR := try (destruct_p; fail);
  try (let n := fresh in let X := fresh in intros n X; destruct (NR ltac:(discriminate) n X) as [-> ->]; right; split; [reflexivity|left; reflexivity]);
  try (let n := fresh in let X := fresh in intros n X ?; specialize (NG ltac:(discriminate) n X); congruence).
Lemma child_inv k ok s s' : inv k s -> child_step ok s = Some s' -> inv k s'.
Proof.
  intros I H. destruct I as [IK IP IC ID IDA IPI IT IU IH IR IF IW]. destruct s as [p pe c ce cs d de ds hs pi dn fl cf]. unfold child_step in H. cbn in *.
  assert (NG : c <> CReaped -> forall n, p = PGone (Some n) -> fl = true).
  { intros N n ->. destruct fl; [reflexivity|]. destruct (N (IW n eq_refl eq_refl)). }
  assert (NR : c <> CReaped -> forall n, p = PGone (Some n) -> n = 1%N /\ fl = true).
  { intros N n X. specialize (NG N n X). split; [|exact NG]. specialize (IF NG). congruence. }
  destruct c; try discriminate.
  - destruct IC as (W & -> & ->). injection H as <-. constructor; cbn; done; fin NG NR; destruct ok; done.
  - destruct IC as (W & -> & ->). injection H as <-. constructor; cbn; done; fin NG NR; destruct ok; done.
  - destruct IC as (W & -> & CS). destruct IDA as (-> & -> & ->). destruct ok; injection H as <-; constructor; cbn; done; fin NG NR.
  - destruct ok; [|discriminate]. injection H as <-. constructor; cbn; done; fin NG NR.
Qed.

Lemma daemon_inv k ok s s' : inv k s -> daemon_step C ok s = Some s' -> inv (if ok then S k else k) s'.
Proof.
  intros I H. destruct I as [IK IP IC ID IDA IPI IT IU IH IR IF IW]. destruct s as [p pe c ce cs d de ds hs pi dn fl cf]. unfold daemon_step in H. cbn in *.
  destruct d as [|todo| |]; try discriminate. destruct IDA as (-> & K & W & DS).
  assert (NC : c = CLeave \/ c = CZombie \/ c = CReaped) by (destruct c; intuition congruence).
  destruct ok.
  - assert (S : exists j r, skipn k jobs = j :: r /\ skipn (S k) jobs = r /\ rev (firstn (S k) jobs) = j :: rev (firstn k jobs) /\
      (r = [] -> k = 23) /\ (j = JTell <-> k = 16) /\ (j = JTellClose <-> k = 17)).
    { clear - K. do 24 (destruct k as [|k]; [eexists; eexists; split; [reflexivity|]; split; [reflexivity|]; split; [reflexivity|]; intuition (try discriminate)|]). lia. }
    destruct S as (j & r & S1 & S2 & S3 & R & T1 & T2). rewrite S1 in H.
    assert (X : forall e pi' hs', (e_w e = (S k <=? 17)) -> (forall h e, In (h, e) hs' -> match h with HNew => True | _ => e = none end) ->
      (pi' = if Nat.eqb k 16 then [0%N] else pi) ->
      inv (S k) (State p pe c ce cs (match r with [] => DUp | _ => DInit r end) e ds hs' pi' (j :: dn) fl cf)).
    { intros e pi' hs' EW HH ->. constructor; cbn; try assumption; try lia.
      - destruct c; intuition congruence || (destruct r; intuition (try congruence; try discriminate)).
      - rewrite ID. symmetry. exact S3.
      - destruct r as [|j' r]; [|split; [symmetry; exact S2|]].
        + split; [rewrite (R eq_refl); reflexivity|]. split; [|exact DS]. rewrite EW, (R eq_refl). reflexivity.
        + split; [|split; [exact EW|exact DS]]. destruct (Nat.eq_dec k 23) as [->|]; [|lia]. cbn in S2. discriminate S2.
      - destruct (Nat.eqb_spec k 16); [right; reflexivity|exact IPI].
      - intros L G. destruct (Nat.eqb_spec k 16); [reflexivity|]. apply IT; [lia|exact G].
      - intros L. destruct (Nat.eqb_spec k 16); [lia|]. apply IU. lia.
      - intros n Y. destruct (IR n Y) as [(A & B & D)|(A & [B|(B & [D|[D _]])])]; try discriminate D; [left; split; [exact A|split; [lia|exact D]]|right; split; [exact A|left; exact B]]. }
    assert (SP : forall h e, In (h, e) (hs ++ [(HNew, de)]) -> match h with HNew => True | _ => e = none end).
    { intros h e J. apply in_app_or in J. destruct J as [J|[J|[]]]; [exact (IH h e J)|injection J as <- <-; exact Logic.I]. }
    destruct (Nat.eq_dec k 16) as [->|N16]; [|destruct (Nat.eq_dec k 17) as [->|N17]].
    + assert (j = JTell) by tauto. subst j. match type of H with (if ?r then _ else _) = _ => destruct r end; [|discriminate]. injection H as <-. unfold did, set_pipe, set_daemon. cbn. apply X; [rewrite W; reflexivity|exact IH|].
      rewrite (IU ltac:(lia)). reflexivity.
    + assert (j = JTellClose) by tauto. subst j. injection H as <-. unfold did, set_pipe, set_daemon. cbn. apply X; [reflexivity|exact IH|reflexivity].
    + assert (EW : e_w de = (S k <=? 17)). { rewrite W. destruct (Nat.leb_spec k 17), (Nat.leb_spec (S k) 17); try reflexivity; lia. }
      assert (PI : pi = if Nat.eqb k 16 then [0%N] else pi) by (destruct (Nat.eqb_spec k 16); [lia|reflexivity]).
      assert (Y : forall hs', hs' = hs \/ hs' = hs ++ [(HNew, de)] -> inv (S k) (State p pe c ce cs (match r with [] => DUp | _ => DInit r end) de ds hs' pi (j :: dn) fl cf)).
      { intros hs' [->| ->]; apply X; assumption. }
      destruct j; try (exfalso; clear - T1 T2 N16 N17; intuition congruence); try (injection H as <-; unfold did, set_daemon; cbn; apply Y; left; reflexivity).
      * destruct (pre_up C); injection H as <-; unfold did, set_daemon, spawn, set_helpers; cbn; apply Y; [right|left]; reflexivity.
      * destruct (on_up C); injection H as <-; unfold did, set_daemon, spawn, set_helpers; cbn; apply Y; [right|left]; reflexivity.
  - destruct (skipn k jobs) as [|j r]; [discriminate|]. injection H as <-. constructor; cbn; try assumption; try lia.
    + destruct NC as [->|[->| ->]]; [discriminate|exact IC|exact IC].
    + split; [reflexivity|exact DS].
    + intros n Y. destruct (IR n Y) as [A|(A & [B|(B & [D|[D _]])])]; try discriminate D; [left; exact A|right; split; [exact A|left; exact B]].
Qed.

Lemma step_inv e s s' k : inv k s -> step C e s = Some s' -> exists k', inv k' s' /\ k <= k'.
Proof.
  intros I H. destruct e as [ok|ok|ok|t|t|i|i t|i| | |]; cbn [step] in H.
  - exists k. split; [exact (parent_inv k ok s s' I H)|lia].
  - exists k. split; [exact (child_inv k ok s s' I H)|lia].
  - exists (if ok then S k else k). split; [exact (daemon_inv k ok s s' I H)|destruct ok; lia].
  - exists k. rewrite stderr_same in H. destruct (s_daemon s); try discriminate H; injection H as <-; split; (exact I || lia).
  - exists k. rewrite stderr_same in H. destruct (s_child s); try discriminate H; injection H as <-; split; (exact I || lia).
  - exists k. split; [|lia]. destruct (nth_error (s_helpers s) i) as [[[] e]|] eqn:NX; try discriminate H. injection H as <-.
    destruct I as [IK IP IC ID IDA IPI IT IU IH IR IF IW]. constructor; cbn; try assumption.
    + destruct (s_daemon s); try assumption. destruct IDA as (_ & _ & X). rewrite X in NX. destruct i; discriminate NX.
    + intros h e' J. apply in_update in J. destruct J as [J|J]; [injection J as -> ->; apply close_all_none|exact (IH h e' J)].
  - exfalso. destruct (nth_error (s_helpers s) i) as [[[] e]|] eqn:NX; try discriminate H. pose proof (i_helpers k s I HRun e (nth_error_In _ _ NX)) as X. cbn in X. subst e. discriminate H.
  - exists k. split; [|lia]. assert (H' : s' = set_helpers (update (s_helpers s) i (HGone, none)) s) by (destruct (nth_error (s_helpers s) i) as [[[] e]|]; try discriminate H; injection H as <-; reflexivity).
    assert (NE : s_helpers s <> []) by (intros X; rewrite X in H; destruct i; discriminate H). subst s'.
    destruct I as [IK IP IC ID IDA IPI IT IU IH IR IF IW]. constructor; cbn; try assumption.
    + destruct (s_daemon s); try assumption. destruct IDA as (_ & _ & X). contradiction.
    + intros h e' J. apply in_update in J. destruct J as [J|J]; [injection J as -> ->; reflexivity|exact (IH h e' J)].
  - exists k. split; [|lia]. destruct I as [IK IP IC ID IDA IPI IT IU IH IR IF IW]. assert (FL : s_failed s = false).
    { destruct (s_failed s); [|reflexivity]. rewrite (IF eq_refl) in H. discriminate H. }
    destruct (s_parent s) eqn:P; try discriminate H; injection H as <-; constructor; cbn; try assumption; try reflexivity; try discriminate; rewrite ?FL; discriminate.
  - exists k. split; [|lia]. destruct I as [IK IP IC ID IDA IPI IT IU IH IR IF IW].
    assert (N : s_child s <> CReaped /\ s_child s <> CNone) by (destruct (s_child s); split; discriminate). destruct N as [N N0].
    assert (H' : s' = set_child CZombie none (s_csession s) s) by (destruct (s_child s); try discriminate H; injection H as <-; reflexivity). subst s'.
    assert (NG : forall n, s_parent s = PGone (Some n) -> s_failed s = true).
    { intros n X. destruct (s_failed s) eqn:F; [reflexivity|]. destruct (N (IW n X eq_refl)). }
    constructor; cbn; try assumption; try reflexivity.
    + destruct (s_parent s); try assumption; intuition discriminate || (intuition congruence).
    + intros n X. pose proof (NG n X) as F. pose proof (IF F) as Y. right. split; [congruence|left; exact F].
    + intros n X Y. rewrite (NG n X) in Y. discriminate Y.
  - exists k. split; [|lia]. destruct I as [IK IP IC ID IDA IPI IT IU IH IR IF IW].
    assert (N : s_daemon s <> DNone /\ s_daemon s <> DGone) by (destruct (s_daemon s); split; discriminate). destruct N as [N N0].
    assert (H' : s' = set_daemon DGone none (s_dsession s) s) by (destruct (s_daemon s); try discriminate H; injection H as <-; reflexivity). subst s'.
    constructor; cbn; try assumption.
    + destruct (s_child s); intuition congruence.
    + split; [reflexivity|]. destruct (s_daemon s); intuition congruence.
    + intros n X. destruct (IR n X) as [A|(A & [B|(B & _)])]; [left; exact A|right; split; [exact A|left; exact B]|].
      right. split; [exact A|]. right. split; [exact B|left; reflexivity].
Qed.

Lemma run_inv l : forall s s' k, inv k s -> run C l s = Some s' -> exists k', inv k' s' /\ k <= k'.
Proof.
  induction l as [|e l IH]; intros s s' k I H; cbn [run] in H; [injection H as <-; exists k; split; [exact I|lia]|].
  destruct (step C e s) as [s1|] eqn:S; [|discriminate]. destruct (step_inv e s s1 k I S) as (k1 & I1 & L1). destruct (IH s1 s' k1 I1 H) as (k2 & I2 & L2).
  exists k2. split; [exact I2|lia].
Qed.
Lemma reachable_inv s : reachable C s -> exists k, inv k s.
Proof. intros [l H]. destruct (run_inv l start s 0 inv_start H) as (k & I & _). exists k. exact I. Qed.

Lemma ready_iff k s : inv k s -> (ready s <-> 17 <= k).
Proof.
  intros I. unfold ready. rewrite (i_done k s I), rev_involutive. pose proof (i_k k s I) as K. clear - K. split.
  - intros [later H]. apply (f_equal (@List.length job)) in H. rewrite app_length, firstn_length in H. cbn [List.length] in H. lia.
  - intros L. exists (skipn 17 (firstn k jobs)). do 17 (destruct k as [|k]; [lia|]). do 8 (destruct k as [|k]; [reflexivity|]). lia.
Qed.
End Steps.
