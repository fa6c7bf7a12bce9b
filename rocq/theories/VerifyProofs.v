(** Proofs about the limit of verification commands *)
From Coq Require Import Permutation.
From Verif Require Import Base VerifyModel VerifySpec.

Definition held (s : vstate) : nat := match v_main s with MIdle => 0 | MCreate _ => 1 end.
Definition has_env (p : tphase) : Prop := match p with TFork | TWait | TFreeEnv _ => True | _ => False end.
Definition has_arg (p : tphase) : Prop := match p with TPost => False | _ => True end.

Record vinv (s : vstate) : Prop := mk_vinv {
  vi_ids : NoDup (map fst (v_threads s));
  vi_next : forall id p, In (id, p) (v_threads s) -> id < v_next s;
  vi_main : forall id, v_main s = MCreate id -> id < v_next s /\ ~ In id (map fst (v_threads s)) /\ In id (v_envs s) /\ In id (v_args s);
  vi_slots : v_sem s + length (v_threads s) + held s = VERIFY_LIMIT;
  vi_env : forall id p, In (id, p) (v_threads s) -> has_env p -> In id (v_envs s);
  vi_arg : forall id p, In (id, p) (v_threads s) -> has_arg p -> In id (v_args s);
  vi_args : forall id, In id (v_args s) -> v_main s = MCreate id \/ exists p, In (id, p) (v_threads s) /\ has_arg p;
  vi_bad : v_bad s = false
}.

Lemma mem_in : forall x l, mem x l = true <-> In x l.
Proof. intros x l. unfold mem. rewrite existsb_exists. split; [intros (y & H & E); apply Nat.eqb_eq in E; subst; exact H | intros H; exists x; split; [exact H | apply Nat.eqb_refl]]. Qed.
Lemma del_in : forall x y l, In y (del x l) <-> In y l /\ y <> x.
Proof. intros x y l. unfold del. rewrite filter_In, negb_true_iff, Nat.eqb_neq. tauto. Qed.
Lemma phase_in : forall id s p, phase id s = Some p -> In (id, p) (v_threads s).
Proof.
  intros id s p. unfold phase. destruct (find _ _) as [[i q]|] eqn:E; cbn [option_map snd]; [|discriminate]. intros H. injection H as ->.
  apply find_some in E. cbn [fst] in E. destruct E as [E1 E2]. apply Nat.eqb_eq in E2. subst i. exact E1.
Qed.
Lemma set_in : forall id p l i q, NoDup (map fst l) -> In (i, q) (set_phase id p l) ->
  (i = id /\ q = p /\ In id (map fst l)) \/ (i <> id /\ In (i, q) l).
Proof.
  intros id p l i q Hn H. unfold set_phase in H. apply in_map_iff in H. destruct H as ([j r] & E & H). cbn [fst] in E. destruct (Nat.eqb_spec j id) as [->|Hne].
  - injection E as <- <-. left. split; [reflexivity|]. split; [reflexivity|]. apply in_map_iff. exists (id, r). split; [reflexivity | exact H].
  - injection E as -> ->. right. split; assumption.
Qed.
Lemma set_fst : forall id p l, map fst (set_phase id p l) = map fst l.
Proof. intros id p l. unfold set_phase. induction l as [|[i q] l IH]; [reflexivity|]. cbn [map fst]. rewrite IH. destruct (Nat.eqb_spec i id) as [->|]; reflexivity. Qed.
Lemma set_len : forall id p l, length (set_phase id p l) = length l.
Proof. intros. apply map_length. Qed.
Lemma set_same : forall id p q l, In (id, q) l -> In (id, p) (set_phase id p l).
Proof. intros id p q l H. unfold set_phase. apply in_map_iff. exists (id, q). cbn [fst]. rewrite Nat.eqb_refl. split; [reflexivity | exact H]. Qed.
Lemma set_other : forall id p l i q, i <> id -> In (i, q) l -> In (i, q) (set_phase id p l).
Proof. intros id p l i q Hi H. unfold set_phase. apply in_map_iff. exists (i, q). cbn [fst]. apply Nat.eqb_neq in Hi. rewrite Hi. split; [reflexivity | exact H]. Qed.
Lemma end_in : forall id l i q, In (i, q) (end_thread id l) <-> In (i, q) l /\ i <> id.
Proof. intros id l i q. unfold end_thread. rewrite filter_In, negb_true_iff, Nat.eqb_neq. reflexivity. Qed.
Lemma end_nodup : forall id l, NoDup (map fst l) -> NoDup (map fst (end_thread id l)).
Proof.
  intros id l. unfold end_thread. induction l as [|[i q] l IH]; cbn [filter map fst]; intros H; [constructor|]. inversion H as [|? ? X Y]; subst.
  destruct (Nat.eqb i id); cbn [negb]; [exact (IH Y)|]. cbn [map fst]. constructor; [|exact (IH Y)]. intros Z. apply X. apply in_map_iff in Z. destruct Z as (t & <- & Z).
  apply filter_In in Z. apply in_map. apply Z.
Qed.
Lemma end_len : forall id q l, NoDup (map fst l) -> In (id, q) l -> length l = S (length (end_thread id l)).
Proof.
  intros id q l. unfold end_thread. induction l as [|[i r] l IH]; cbn [map fst filter In]; intros Hn Hin; [contradiction|]. inversion Hn as [|? ? X Y]; subst.
  destruct (Nat.eqb_spec i id) as [->|Hne]; cbn [negb length].
  - f_equal. clear IH Hin Hn Y. induction l as [|[j r'] l IH]; [reflexivity|]. cbn [map fst In] in X. cbn [filter fst length]. destruct (Nat.eqb_spec j id) as [->|]; [exfalso; apply X; left; reflexivity|].
    cbn [negb length]. f_equal. apply IH. intros Z. apply X. right. exact Z.
  - destruct Hin as [E|Hin]; [injection E as -> _; contradiction|]. f_equal. exact (IH Y Hin).
Qed.
Lemma nodup_fst : forall id p q (l : list (nat * tphase)), NoDup (map fst l) -> In (id, p) l -> In (id, q) l -> p = q.
Proof.
  intros id p q l. induction l as [|[i r] l IH]; cbn [map fst In]; intros Hn H1 H2; [contradiction|]. inversion Hn as [|? ? X Y]; subst.
  destruct H1 as [E1|H1], H2 as [E2|H2].
  - congruence.
  - injection E1 as -> ->. exfalso. apply X. apply in_map_iff. exists (id, q). split; [reflexivity | exact H2].
  - injection E2 as -> ->. exfalso. apply X. apply in_map_iff. exists (id, p). split; [reflexivity | exact H1].
  - exact (IH Y H1 H2).
Qed.
Lemma in_fst : forall (id : nat) (p : tphase) l, In (id, p) l -> In id (map fst l).
Proof. intros id p l H. apply in_map_iff. exists (id, p). split; [reflexivity | exact H]. Qed.
Lemma in_mem : forall x l, In x l -> mem x l = true. Proof. intros x l H. apply mem_in. exact H. Qed.

(** A thread step that keeps the thread *)
Lemma keep_inv : forall s id p q procs envs args results,
  vinv s -> In (id, p) (v_threads s) ->
  (forall i, i <> id -> In i envs <-> In i (v_envs s)) -> (forall i, i <> id -> In i args <-> In i (v_args s)) ->
  (has_env q -> In id envs) -> (has_arg q <-> In id args) ->
  vinv (mk_vstate (v_sem s) (v_main s) (set_phase id q (v_threads s)) procs envs args results (v_next s) false).
Proof.
  intros s id p q procs envs args results [H1 H2 H3 H4 H5 H6 H7 H8] Hin He Ha Hqe Hqa. constructor; cbn [v_sem v_main v_threads v_procs v_envs v_args v_results v_next v_bad held].
  - rewrite set_fst. exact H1.
  - intros i r X. apply set_in in X; [|exact H1]. destruct X as [(-> & -> & _) | (_ & X)]; [exact (H2 id p Hin) | exact (H2 i r X)].
  - intros i Hm. destruct (H3 i Hm) as (X1 & X2 & X3 & X4). assert (Hne : i <> id) by (intros ->; apply X2; apply (in_fst id p); exact Hin).
    rewrite set_fst. split; [exact X1|]. split; [exact X2|]. split; [apply He; assumption | apply Ha; assumption].
  - rewrite set_len. exact H4.
  - intros i r X Y. apply set_in in X; [|exact H1]. destruct X as [(-> & -> & _) | (N & X)]; [exact (Hqe Y) | apply He; [exact N | exact (H5 i r X Y)]].
  - intros i r X Y. apply set_in in X; [|exact H1]. destruct X as [(-> & -> & _) | (N & X)]; [apply Hqa; exact Y | apply Ha; [exact N | exact (H6 i r X Y)]].
  - intros i X. destruct (Nat.eq_dec i id) as [->|N].
    + right. exists q. split; [apply (set_same id q p); exact Hin | apply Hqa; exact X].
    + apply Ha in X; [|exact N]. destruct (H7 i X) as [Y | (r & Y & Z)]; [left; exact Y | right; exists r; split; [apply set_other; assumption | exact Z]].
  - reflexivity.
Qed.

Lemma vstep_inv : forall e s s', vinv s -> vstep e s = Some s' -> vinv s'.
Proof.
  intros e s s' Hi H. pose proof Hi as [H1 H2 H3 H4 H5 H6 H7 H8].
  destruct e as [|ok|id ok|id st|id|id ok|id|id|id]; cbn [vstep] in H.
  - destruct (v_main s) as [|m] eqn:Em; [|discriminate]. unfold held in H4. rewrite Em in H4. destruct (v_sem s) as [|n] eqn:Es; injection H as <-.
    + constructor; cbn [v_sem v_main v_threads v_procs v_envs v_args v_results v_next v_bad held]; try assumption.
      * intros i p X. specialize (H2 i p X). lia.
      * discriminate.
      * intros i p X Y. right. exact (H5 i p X Y).
    + constructor; cbn [v_sem v_main v_threads v_procs v_envs v_args v_results v_next v_bad held]; try assumption.
      * intros i p X. specialize (H2 i p X). lia.
      * intros i X. injection X as <-. split; [lia|]. split; [|split; left; reflexivity]. intros Y. apply in_map_iff in Y. destruct Y as ([j q] & Ej & Y). cbn [fst] in Ej. specialize (H2 j q Y). lia.
      * lia.
      * intros i p X Y. right. exact (H5 i p X Y).
      * intros i p X Y. right. exact (H6 i p X Y).
      * intros i [<- | X]; [left; reflexivity|]. destruct (H7 i X) as [Y|Y]; [congruence | right; exact Y].
  - destruct (v_main s) as [|m] eqn:Em; [discriminate|]. unfold held in H4. rewrite Em in H4. destruct (H3 m eq_refl) as (X1 & X2 & X3 & X4). destruct ok; injection H as <-.
    + constructor; cbn [v_sem v_main v_threads v_procs v_envs v_args v_results v_next v_bad held]; try assumption.
      * rewrite map_app. cbn [map fst]. apply (Permutation_NoDup (l := m :: map fst (v_threads s))); [apply Permutation_cons_append | constructor; assumption].
      * intros i p X. apply in_app_or in X. destruct X as [X|[E|[]]]; [exact (H2 i p X) | injection E as <- <-; exact X1].
      * discriminate.
      * rewrite app_length. cbn [length]. lia.
      * intros i p X Y. apply in_app_or in X. destruct X as [X|[E|[]]]; [exact (H5 i p X Y) | injection E as <- <-; exact X3].
      * intros i p X Y. apply in_app_or in X. destruct X as [X|[E|[]]]; [exact (H6 i p X Y) | injection E as <- <-; exact X4].
      * intros i X. right. destruct (H7 i X) as [Y|(p & Y & Z)].
        -- injection Y as ->. exists TFork. split; [apply in_or_app; right; left; reflexivity | exact I].
        -- exists p. split; [apply in_or_app; left; exact Y | exact Z].
    + constructor; cbn [v_sem v_main v_threads v_procs v_envs v_args v_results v_next v_bad held]; try assumption.
      * discriminate.
      * lia.
      * intros i p X Y. apply del_in. split; [exact (H5 i p X Y)|]. intros ->. apply X2. apply (in_fst m p). exact X.
      * intros i p X Y. apply del_in. split; [exact (H6 i p X Y)|]. intros ->. apply X2. apply (in_fst m p). exact X.
      * intros i X. apply del_in in X. destruct X as [X N]. destruct (H7 i X) as [Y|Y]; [injection Y as <-; contradiction | right; exact Y].
      * rewrite H8, (in_mem _ _ X3), (in_mem _ _ X4). reflexivity.
  - destruct (phase id s) as [[| | | | |]|] eqn:Ep; try discriminate. injection H as <-. apply phase_in in Ep. rewrite H8, (in_mem _ _ (H5 _ _ Ep I)), (in_mem _ _ (H6 _ _ Ep I)). cbn [negb orb].
    apply (keep_inv s id TFork); try assumption; try tauto.
    + intros _. exact (H5 _ _ Ep I).
    + pose proof (H6 _ _ Ep I). destruct ok; cbn [has_arg]; tauto.
  - destruct (phase id s) as [[| | | | |]|] eqn:Ep; try discriminate. injection H as <-. apply phase_in in Ep. rewrite H8.
    apply (keep_inv s id TWait); try assumption; try tauto.
    + intros _. exact (H5 _ _ Ep I).
    + pose proof (H6 _ _ Ep I). cbn [has_arg]; tauto.
  - destruct (phase id s) as [[| |b| | |]|] eqn:Ep; try discriminate. injection H as <-. apply phase_in in Ep. rewrite H8, (in_mem _ _ (H5 _ _ Ep I)), (in_mem _ _ (H6 _ _ Ep I)). cbn [negb orb].
    apply (keep_inv s id (TFreeEnv b)); try assumption; try tauto.
    + intros i N. rewrite del_in. tauto.
    + intros [].
    + pose proof (H6 _ _ Ep I). cbn [has_arg]; tauto.
  - destruct (phase id s) as [[| | |b| |]|] eqn:Ep; try discriminate. injection H as <-. apply phase_in in Ep. rewrite H8, (in_mem _ _ (H6 _ _ Ep I)). cbn [negb orb].
    apply (keep_inv s id (TEnqueue b)); try assumption; try tauto.
    + intros [].
    + pose proof (H6 _ _ Ep I). cbn [has_arg]; tauto.
  - destruct (phase id s) as [[| | | | |]|] eqn:Ep; try discriminate. injection H as <-. apply phase_in in Ep. rewrite H8, (in_mem _ _ (H6 _ _ Ep I)). cbn [negb orb].
    apply (keep_inv s id TFreeArg); try assumption; try tauto.
    + intros i N. rewrite del_in. tauto.
    + intros [].
    + cbn [has_arg]. rewrite del_in. tauto.
  - destruct (phase id s) as [[| | | | |]|] eqn:Ep; try discriminate. injection H as <-. apply phase_in in Ep.
    assert (Hna : ~ In id (v_args s)).
    { intros X. destruct (H7 id X) as [Y | (p & Y & Z)]; [destruct (H3 id Y) as (_ & Y2 & _); apply Y2; apply (in_fst id TPost); exact Ep|]. rewrite (nodup_fst id p TPost _ H1 Y Ep) in Z. exact Z. }
    constructor; cbn [v_sem v_main v_threads v_procs v_envs v_args v_results v_next v_bad held]; try assumption.
    + apply end_nodup. exact H1.
    + intros i p X. apply end_in in X. exact (H2 i p (proj1 X)).
    + intros i Hm. destruct (H3 i Hm) as (X1 & X2 & X3 & X4). split; [exact X1|]. split; [|split; assumption]. intros X. apply X2. apply in_map_iff in X. destruct X as ([j q] & E & X).
      cbn [fst] in E. subst j. apply end_in in X. apply (in_fst i q). apply X.
    + pose proof (end_len id TPost _ H1 Ep) as L. unfold held in *. cbn [v_main]. lia.
    + intros i p X Y. apply end_in in X. exact (H5 i p (proj1 X) Y).
    + intros i p X Y. apply end_in in X. exact (H6 i p (proj1 X) Y).
    + intros i X. destruct (H7 i X) as [Y | (p & Y & Z)]; [left; exact Y|]. right. exists p. split; [|exact Z]. apply end_in. split; [exact Y|]. intros ->. contradiction.
  - assert (E : s' = mk_vstate (v_sem s) (v_main s) (v_threads s) (del id (v_procs s)) (v_envs s) (v_args s) (v_results s) (v_next s) (v_bad s)).
    { destruct (phase id s) as [[| | | | |]|]; try discriminate; destruct (mem id (v_procs s)); try discriminate; injection H as <-; reflexivity. }
    subst s'. constructor; assumption.
Qed.

Lemma vrun_inv : forall l s s', vinv s -> vrun l s = Some s' -> vinv s'.
Proof.
  intros l. induction l as [|e l IH]; intros s s' Hi H; cbn [vrun] in H; [injection H as <-; exact Hi|].
  destruct (vstep e s) as [s1|] eqn:E; [|discriminate]. exact (IH s1 s' (vstep_inv e s s1 Hi E) H).
Qed.
Lemma vinit_inv : vinv vinit.
Proof. constructor; cbn; try constructor; try contradiction; try discriminate; intros; contradiction. Qed.

(** Running commands belong to waiting threads if waitpid does not fail *)
Definition waited (s : vstate) : Prop := NoDup (v_procs s) /\ forall id, In id (v_procs s) <-> In (id, TWait) (v_threads s).

Lemma waited_step : forall e s s', vinv s -> waited s -> (forall id, e <> EWait id None) -> vstep e s = Some s' -> waited s'.
Proof.
  intros e s s' Hi [Hn Hw] He H. pose proof (vi_ids _ Hi) as Hids.
  assert (Keep : forall id p q, In (id, p) (v_threads s) -> p <> TWait -> q <> TWait -> forall i, In i (v_procs s) <-> In (i, TWait) (set_phase id q (v_threads s))).
  { intros id p q Hin Np Nq i. rewrite Hw. split.
    - intros X. destruct (Nat.eq_dec i id) as [->|N]; [exfalso; apply Np; exact (nodup_fst id p TWait _ Hids Hin X)|]. apply set_other; assumption.
    - intros X. apply set_in in X; [|exact Hids]. destruct X as [(_ & X & _) | (_ & X)]; [congruence | exact X]. }
  destruct e as [|ok|id ok|id st|id|id ok|id|id|id]; cbn [vstep] in H.
  - destruct (v_main s); [|discriminate]. destruct (v_sem s); injection H as <-; split; assumption.
  - destruct (v_main s) as [|m]; [discriminate|]. destruct ok; injection H as <-; (split; [assumption|]); [|exact Hw]. intros i. cbn [v_procs v_threads]. rewrite Hw, in_app_iff. cbn [In]. split; [tauto|]. intros [X|[X|[]]]; [exact X | discriminate].
  - destruct (phase id s) as [[| | | | |]|] eqn:Ep; try discriminate. injection H as <-. apply phase_in in Ep. destruct ok; unfold waited; cbn [v_procs v_threads].
    + assert (Hni : ~ In id (v_procs s)) by (rewrite Hw; intros X; pose proof (nodup_fst _ _ _ _ Hids X Ep); discriminate).
      split; [constructor; assumption|]. intros i. cbn [In]. split.
      * intros [<-|X]; [apply (set_same id TWait TFork); exact Ep|]. apply set_other; [intros ->; contradiction | apply Hw; exact X].
      * intros X. apply set_in in X; [|exact Hids]. destruct X as [(-> & _) | (_ & X)]; [left; reflexivity | right; apply Hw; exact X].
    + split; [exact Hn|]. apply (Keep id TFork); [exact Ep | discriminate | discriminate].
  - destruct (phase id s) as [[| | | | |]|] eqn:Ep; try discriminate. injection H as <-. apply phase_in in Ep. destruct st as [b|]; [|exfalso; exact (He id eq_refl)].
    unfold waited; cbn [v_procs v_threads]. split; [apply NoDup_filter; exact Hn|]. intros i. rewrite del_in, Hw. split.
    + intros [X N]. apply set_other; assumption.
    + intros X. apply set_in in X; [|exact Hids]. destruct X as [(_ & X & _) | (N & X)]; [discriminate | split; assumption].
  - destruct (phase id s) as [[| |b| | |]|] eqn:Ep; try discriminate. injection H as <-. apply phase_in in Ep. split; [exact Hn|]. cbn [v_procs v_threads]. apply (Keep id (TFreeEnv b)); [exact Ep | discriminate | discriminate].
  - destruct (phase id s) as [[| | |b| |]|] eqn:Ep; try discriminate. injection H as <-. apply phase_in in Ep. split; [exact Hn|]. cbn [v_procs v_threads]. apply (Keep id (TEnqueue b)); [exact Ep | discriminate | discriminate].
  - destruct (phase id s) as [[| | | | |]|] eqn:Ep; try discriminate. injection H as <-. apply phase_in in Ep. split; [exact Hn|]. cbn [v_procs v_threads]. apply (Keep id TFreeArg); [exact Ep | discriminate | discriminate].
  - destruct (phase id s) as [[| | | | |]|] eqn:Ep; try discriminate. injection H as <-. apply phase_in in Ep. split; [exact Hn|]. cbn [v_procs v_threads]. intros i. rewrite Hw, end_in. split; [|tauto].
    intros X. split; [exact X|]. intros ->. pose proof (nodup_fst _ _ _ _ Hids X Ep). discriminate.
  - exfalso. destruct (mem id (v_procs s)) eqn:Em; [|destruct (phase id s) as [[| | | | |]|]; discriminate]. apply mem_in in Em. apply Hw in Em.
    assert (X : phase id s = Some TWait).
    { unfold phase. destruct (find (fun t => Nat.eqb (fst t) id) (v_threads s)) as [[j q]|] eqn:Ef; cbn [option_map snd].
      - apply find_some in Ef. cbn [fst] in Ef. destruct Ef as [Ef1 Ef2]. apply Nat.eqb_eq in Ef2. subst j. rewrite (nodup_fst _ _ _ _ Hids Ef1 Em). reflexivity.
      - exfalso. apply (find_none _ _ Ef) in Em. cbn [fst] in Em. rewrite Nat.eqb_refl in Em. discriminate. }
    rewrite X in H. discriminate.
Qed.
Lemma waited_run : forall l s s', vinv s -> waited s -> no_wait_error l -> vrun l s = Some s' -> waited s'.
Proof.
  intros l. induction l as [|e l IH]; intros s s' Hi Hw Hn H; cbn [vrun] in H; [injection H as <-; exact Hw|].
  destruct (vstep e s) as [s1|] eqn:E; [|discriminate]. apply (IH s1 s' (vstep_inv e s s1 Hi E)); [|intros id X; exact (Hn id (or_intror X)) | exact H].
  apply (waited_step e s s1 Hi Hw); [|exact E]. intros id ->. exact (Hn id (or_introl eq_refl)).
Qed.

Lemma limit_kept : forall l s, no_wait_error l -> vrun l vinit = Some s -> length (v_procs s) <= VERIFY_LIMIT.
Proof.
  intros l s Hn H. pose proof (vrun_inv l _ _ vinit_inv H) as Hi.
  assert (W0 : waited vinit) by (split; [constructor | intros id; split; intros []]).
  destruct (waited_run l _ _ vinit_inv W0 Hn H) as [Hnd Hw]. pose proof (vi_slots _ Hi) as Hs.
  assert (Hle : length (v_procs s) <= length (map fst (v_threads s))) by (apply NoDup_incl_length; [exact Hnd | intros id X; apply (in_fst id TWait); apply Hw; exact X]).
  rewrite map_length in Hle. lia.
Qed.
Lemma slots_accounted : forall l s, vrun l vinit = Some s ->
  v_sem s + length (v_threads s) + (match v_main s with MIdle => 0 | MCreate _ => 1 end) = VERIFY_LIMIT /\ v_bad s = false /\
  (forall id, In id (v_args s) -> v_main s = MCreate id \/ In id (map fst (v_threads s))).
Proof.
  intros l s H. pose proof (vrun_inv l _ _ vinit_inv H) as Hi. split; [exact (vi_slots _ Hi)|]. split; [exact (vi_bad _ Hi)|].
  intros id X. destruct (vi_args _ Hi id X) as [Y|(p & Y & _)]; [left; exact Y | right; exact (in_fst id p _ Y)].
Qed.

(** ** The threads can always end *)
Definition left_steps (p : tphase) : nat :=
  match p with TFork => 6 | TWait => 5 | TFreeEnv _ => 4 | TEnqueue _ => 3 | TFreeArg => 2 | TPost => 1 end.
Definition total (l : list (nat * tphase)) : nat := fold_right (fun t n => left_steps (snd t) + n) 0 l.

Definition next_event (id : nat) (p : tphase) : vevent :=
  match p with
  | TFork => EFork id true
  | TWait => EWait id (Some true)
  | TFreeEnv _ => EFreeEnv id
  | TEnqueue _ => EEnqueue id true
  | TFreeArg => EFreeArg id
  | TPost => EPost id
  end.

Lemma set_head : forall id p q l, NoDup (map fst ((id, p) :: l)) -> set_phase id q ((id, p) :: l) = (id, q) :: l.
Proof.
  intros id p q l Hn. unfold set_phase. cbn [map fst]. rewrite Nat.eqb_refl. f_equal. cbn [map fst] in Hn. inversion Hn as [|? ? X Y]; subst. clear Hn Y.
  induction l as [|[j r] l IH]; [reflexivity|]. cbn [map fst In] in *. destruct (Nat.eqb_spec j id) as [->|]; [exfalso; apply X; left; reflexivity|]. f_equal. apply IH. tauto.
Qed.
Lemma end_head : forall id p l, NoDup (map fst ((id, p) :: l)) -> end_thread id ((id, p) :: l) = l.
Proof.
  intros id p l Hn. unfold end_thread. cbn [filter fst]. rewrite Nat.eqb_refl. cbn [negb]. cbn [map fst] in Hn. inversion Hn as [|? ? X Y]; subst. clear Hn Y.
  induction l as [|[j r] l IH]; [reflexivity|]. cbn [map fst filter In] in *. destruct (Nat.eqb_spec j id) as [->|]; [exfalso; apply X; left; reflexivity|]. cbn [negb]. f_equal. apply IH. tauto.
Qed.

Lemma drain : forall n s, vinv s -> total (v_threads s) <= n ->
  exists l s', vrun l s = Some s' /\ v_threads s' = [] /\ v_main s' = v_main s /\ Forall thread_event l.
Proof.
  intros n. induction n as [|n IH]; intros s Hi Ht.
  - exists [], s. destruct (v_threads s) as [|[id p] l] eqn:E; [split; [reflexivity|]; split; [reflexivity|]; split; [reflexivity | constructor]|].
    exfalso. cbn [total fold_right snd] in Ht. destruct p; cbn [left_steps] in Ht; lia.
  - destruct (v_threads s) as [|[id p] l] eqn:E; [exists [], s; split; [reflexivity|]; split; [exact E|]; split; [reflexivity | constructor]|].
    assert (Ep : phase id s = Some p) by (unfold phase; rewrite E; cbn [find fst]; rewrite Nat.eqb_refl; reflexivity).
    pose proof (vi_ids _ Hi) as Hn. rewrite E in Hn.
    assert (X : exists s1, vstep (next_event id p) s = Some s1 /\ v_main s1 = v_main s /\ total (v_threads s1) < total ((id, p) :: l)).
    { destruct p; cbn [next_event vstep]; rewrite Ep; eexists; (split; [reflexivity|]); (split; [reflexivity|]); cbn [v_threads]; rewrite E.
      1-5: rewrite set_head by exact Hn; cbn [total fold_right snd left_steps]; lia.
      rewrite (end_head id TPost) by exact Hn. cbn [total fold_right snd left_steps]. unfold total. lia. }
    destruct X as (s1 & E1 & M1 & T1). destruct (IH s1 (vstep_inv _ _ _ Hi E1)) as (l' & s' & R & T & M & F); [lia|].
    exists (next_event id p :: l'), s'. cbn [vrun]. rewrite E1. split; [exact R|]. split; [exact T|]. split; [congruence|]. constructor; [destruct p; exact I | exact F].
Qed.

Lemma recovers : forall l s, vrun l vinit = Some s -> v_main s = MIdle ->
  exists l' s', vrun l' s = Some s' /\ Forall thread_event l' /\ v_sem s' = VERIFY_LIMIT /\ v_main s' = MIdle.
Proof.
  intros l s H Hm. pose proof (vrun_inv l _ _ vinit_inv H) as Hi. destruct (drain _ s Hi (Nat.le_refl _)) as (l' & s' & R & T & M & F).
  exists l', s'. split; [exact R|]. split; [exact F|]. rewrite M. split; [|exact Hm]. pose proof (vi_slots _ (vrun_inv l' _ _ Hi R)) as Hs. unfold held in Hs. rewrite T, M, Hm in Hs. cbn [length] in Hs. lia.
Qed.
Lemma refused_full : forall l s s', vrun l vinit = Some s -> vstep ECall s = Some s' -> v_main s' = MIdle -> length (v_threads s) = VERIFY_LIMIT.
Proof.
  intros l s s' H E Hm. pose proof (vi_slots _ (vrun_inv l _ _ vinit_inv H)) as Hs. cbn [vstep] in E. unfold held in Hs. destruct (v_main s); [|discriminate].
  destruct (v_sem s) as [|n]; injection E as <-; [lia | discriminate].
Qed.

(** ** Results *)
Definition result_inv (s : vstate) : Prop :=
  NoDup (map fst (v_results s)) /\ (forall id b, In (id, b) (v_results s) -> id < v_next s) /\
  (forall id b, In (id, b) (v_results s) -> v_main s <> MCreate id) /\
  (forall id b, In (id, b) (v_results s) -> forall p, In (id, p) (v_threads s) -> p = TFreeArg \/ p = TPost).
Lemma result_step : forall e s s', vinv s -> result_inv s -> vstep e s = Some s' -> result_inv s'.
Proof.
  intros e s s' Hi (R1 & R2 & R3 & R4) H. pose proof (vi_ids _ Hi) as Hids.
  assert (Keep : forall id p q, In (id, p) (v_threads s) -> p <> TFreeArg -> p <> TPost ->
     forall i b, In (i, b) (v_results s) -> forall r, In (i, r) (set_phase id q (v_threads s)) -> r = TFreeArg \/ r = TPost).
  { intros id p q Hin N1 N2 i b X r Y. apply set_in in Y; [|exact Hids]. destruct Y as [(-> & _) | (_ & Y)]; [|exact (R4 i b X r Y)].
    destruct (R4 id b X p Hin); contradiction. }
  destruct e as [|ok|id ok|id st|id|id ok|id|id|id]; cbn [vstep] in H.
  - destruct (v_main s); [|discriminate]. destruct (v_sem s); injection H as <-; (split; [exact R1|]); cbn [v_results v_next v_main v_threads].
    + split; [intros i b X; specialize (R2 i b X); lia|]. split; [discriminate | exact R4].
    + split; [intros i b X; specialize (R2 i b X); lia|]. split; [intros i b X E; injection E as <-; specialize (R2 _ b X); lia | exact R4].
  - destruct (v_main s) as [|m] eqn:Em; [discriminate|]. destruct ok; injection H as <-; (split; [exact R1|]); cbn [v_results v_next v_main v_threads]; (split; [exact R2|]); (split; [discriminate|]); [|exact R4].
    intros i b X r Y. apply in_app_or in Y. destruct Y as [Y|[E|[]]]; [exact (R4 i b X r Y)|]. injection E as <- <-. exfalso. exact (R3 m b X eq_refl).
  - destruct (phase id s) as [[| | | | |]|] eqn:Ep; try discriminate. injection H as <-. apply phase_in in Ep. split; [exact R1|]. split; [exact R2|]. split; [exact R3|].
    cbn [v_threads v_results]. apply (Keep id TFork); [exact Ep | discriminate | discriminate].
  - destruct (phase id s) as [[| | | | |]|] eqn:Ep; try discriminate. injection H as <-. apply phase_in in Ep. split; [exact R1|]. split; [exact R2|]. split; [exact R3|].
    cbn [v_threads v_results]. apply (Keep id TWait); [exact Ep | discriminate | discriminate].
  - destruct (phase id s) as [[| |b| | |]|] eqn:Ep; try discriminate. injection H as <-. apply phase_in in Ep. split; [exact R1|]. split; [exact R2|]. split; [exact R3|].
    cbn [v_threads v_results]. apply (Keep id (TFreeEnv b)); [exact Ep | discriminate | discriminate].
  - destruct (phase id s) as [[| | |b| |]|] eqn:Ep; try discriminate. injection H as <-. apply phase_in in Ep.
    assert (Hni : ~ In id (map fst (v_results s))) by (intros X; apply in_map_iff in X; destruct X as ([j c] & E & X); cbn [fst] in E; subst j; destruct (R4 id c X _ Ep); discriminate).
    unfold result_inv. cbn [v_results v_next v_main v_threads]. destruct ok.
    + split; [rewrite map_app; cbn [map fst]; apply (Permutation_NoDup (l := id :: map fst (v_results s))); [apply Permutation_cons_append | constructor; assumption]|].
      assert (Hin : forall i c, In (i, c) (v_results s ++ [(id, b)]) -> In (i, c) (v_results s) \/ i = id) by (intros i c X; apply in_app_or in X; destruct X as [X|[E|[]]]; [left; exact X | injection E as <- _; right; reflexivity]).
      split; [intros i c X; destruct (Hin i c X) as [Y| ->]; [exact (R2 i c Y) | exact (vi_next _ Hi id _ Ep)]|].
      split; [intros i c X; destruct (Hin i c X) as [Y| ->]; [exact (R3 i c Y)|]; intros Hm; destruct (vi_main _ Hi id Hm) as (_ & Z & _); apply Z; exact (in_fst _ _ _ Ep)|].
      intros i c X r Y. destruct (Hin i c X) as [Z| ->]; [apply (Keep id (TEnqueue b) TFreeArg Ep) with (i := i) (b := c); [discriminate | discriminate | exact Z | exact Y]|].
      apply set_in in Y; [|exact Hids]. destruct Y as [(_ & -> & _) | (N & _)]; [left; reflexivity | contradiction].
    + split; [exact R1|]. split; [exact R2|]. split; [exact R3|]. apply (Keep id (TEnqueue b)); [exact Ep | discriminate | discriminate].
  - destruct (phase id s) as [[| | | | |]|] eqn:Ep; try discriminate. injection H as <-. apply phase_in in Ep. split; [exact R1|]. split; [exact R2|]. split; [exact R3|].
    cbn [v_threads v_results]. intros i b X r Y. apply set_in in Y; [|exact Hids]. destruct Y as [(_ & -> & _) | (_ & Y)]; [right; reflexivity | exact (R4 i b X r Y)].
  - destruct (phase id s) as [[| | | | |]|] eqn:Ep; try discriminate. injection H as <-. split; [exact R1|]. split; [exact R2|]. split; [exact R3|].
    cbn [v_threads v_results]. intros i b X r Y. apply end_in in Y. exact (R4 i b X r (proj1 Y)).
  - assert (E : s' = mk_vstate (v_sem s) (v_main s) (v_threads s) (del id (v_procs s)) (v_envs s) (v_args s) (v_results s) (v_next s) (v_bad s)).
    { destruct (phase id s) as [[| | | | |]|]; try discriminate; destruct (mem id (v_procs s)); try discriminate; injection H as <-; reflexivity. }
    subst s'. split; [exact R1|]. split; [exact R2|]. split; assumption.
Qed.
Lemma results_once : forall l s, vrun l vinit = Some s -> NoDup (map fst (v_results s)).
Proof.
  assert (G : forall l s s', vinv s -> result_inv s -> vrun l s = Some s' -> result_inv s').
  { intros l. induction l as [|e l IH]; intros s s' Hi Hr H; cbn [vrun] in H; [injection H as <-; exact Hr|].
    destruct (vstep e s) as [s1|] eqn:E; [|discriminate]. exact (IH s1 s' (vstep_inv _ _ _ Hi E) (result_step _ _ _ Hi Hr E) H). }
  intros l s H. apply (G l vinit s vinit_inv); [|exact H]. split; [constructor|]. split; [intros id b []|]. split; intros id b [].
Qed.

(** ** A slot is returned once per thread *)

Lemma phase_none : forall id s, ~ In id (map fst (v_threads s)) -> phase id s = None.
Proof.
  intros id s H. unfold phase. destruct (find _ _) as [[j q]|] eqn:E; [|reflexivity]. exfalso. apply find_some in E. cbn [fst] in E. destruct E as [E1 E2].
  apply Nat.eqb_eq in E2. subst j. apply H. exact (in_fst _ _ _ E1).
Qed.
Definition gone (id : nat) (s : vstate) : Prop := id < v_next s /\ v_main s <> MCreate id /\ ~ In id (map fst (v_threads s)).
Lemma gone_step : forall id e s s', gone id s -> vstep e s = Some s' -> gone id s' /\ is_post id e = false.
Proof.
  intros id e s s' (G1 & G2 & G3) H. pose proof (phase_none id s G3) as Gp.
  destruct e as [|ok|i ok|i st|i|i ok|i|i|i]; cbn [vstep] in H; cbn [is_post].
  - split; [|reflexivity]. destruct (v_main s); [|discriminate]. destruct (v_sem s); injection H as <-; (split; [cbn [v_next]; lia|]); (split; [|exact G3]); cbn [v_main]; [discriminate|].
    intros E. injection E as E. lia.
  - split; [|reflexivity]. destruct (v_main s) as [|m]; [discriminate|]. destruct ok; injection H as <-; (split; [exact G1|]); (split; [discriminate|]); [|exact G3]. cbn [v_threads].
    rewrite map_app, in_app_iff. cbn [map fst In]. intros [X|[X|[]]]; [exact (G3 X)|]. apply G2. rewrite X. reflexivity.
  - split; [|reflexivity]. destruct (phase i s) as [[| | | | |]|]; try discriminate. injection H as <-. unfold gone. cbn [v_next v_main v_threads]. rewrite set_fst. tauto.
  - split; [|reflexivity]. destruct (phase i s) as [[| | | | |]|]; try discriminate. injection H as <-. unfold gone. cbn [v_next v_main v_threads]. rewrite set_fst. tauto.
  - split; [|reflexivity]. destruct (phase i s) as [[| | | | |]|]; try discriminate. injection H as <-. unfold gone. cbn [v_next v_main v_threads]. rewrite set_fst. tauto.
  - split; [|reflexivity]. destruct (phase i s) as [[| | | | |]|]; try discriminate. injection H as <-. unfold gone. cbn [v_next v_main v_threads]. rewrite set_fst. tauto.
  - split; [|reflexivity]. destruct (phase i s) as [[| | | | |]|]; try discriminate. injection H as <-. unfold gone. cbn [v_next v_main v_threads]. rewrite set_fst. tauto.
  - destruct (Nat.eqb_spec i id) as [->|N]; [rewrite Gp in H; discriminate|]. split; [|reflexivity]. destruct (phase i s) as [[| | | | |]|]; try discriminate. injection H as <-.
    split; [exact G1|]. split; [exact G2|]. cbn [v_threads]. intros X. apply G3. apply in_map_iff in X. destruct X as ([j q] & E & X). cbn [fst] in E. subst j. apply end_in in X. exact (in_fst _ _ _ (proj1 X)).
  - split; [|reflexivity]. destruct (phase i s) as [[| | | | |]|]; try discriminate; destruct (mem i (v_procs s)); try discriminate; injection H as <-; (split; [exact G1|]); (split; [exact G2 | exact G3]).
Qed.
Lemma gone_run : forall id l s s', gone id s -> vrun l s = Some s' -> posts id l = 0 /\ gone id s'.
Proof.
  intros id l. induction l as [|e l IH]; intros s s' G H; cbn [vrun] in H; [injection H as <-; split; [reflexivity | exact G]|].
  destruct (vstep e s) as [s1|] eqn:E; [|discriminate]. destruct (gone_step id e s s1 G E) as [G1 P]. destruct (IH s1 s' G1 H) as [P1 G']. split; [|exact G'].
  unfold posts in *. cbn [filter]. rewrite P. exact P1.
Qed.
Lemma post_gone : forall id s s', vinv s -> vstep (EPost id) s = Some s' -> gone id s'.
Proof.
  intros id s s' Hi H. cbn [vstep] in H. destruct (phase id s) as [[| | | | |]|] eqn:Ep; try discriminate. apply phase_in in Ep. injection H as <-. split; [exact (vi_next _ Hi _ _ Ep)|]. split.
  - cbn [v_main]. intros Hm. destruct (vi_main _ Hi id Hm) as (_ & X & _). apply X. exact (in_fst _ _ _ Ep).
  - cbn [v_threads]. intros X. apply in_map_iff in X. destruct X as ([j q] & E & X). cbn [fst] in E. subst j. apply end_in in X. apply (proj2 X). reflexivity.
Qed.
Lemma is_post_eq : forall id e, is_post id e = true -> e = EPost id.
Proof. intros id e H. destruct e; try discriminate. apply Nat.eqb_eq in H. subst. reflexivity. Qed.

Lemma run_app : forall l1 l2 s, vrun (l1 ++ l2) s = match vrun l1 s with Some s1 => vrun l2 s1 | None => None end.
Proof. intros l1. induction l1 as [|e l1 IH]; intros l2 s; [reflexivity|]. cbn [app vrun]. destruct (vstep e s); [apply IH | reflexivity]. Qed.

Definition live (id : nat) (s : vstate) : Prop := v_main s = MCreate id \/ In id (map fst (v_threads s)).
Lemma live_step : forall id e s s', vinv s -> In id (map fst (v_threads s)) -> vstep e s = Some s' ->
  (is_post id e = false /\ In id (map fst (v_threads s'))) \/ (is_post id e = true /\ gone id s').
Proof.
  intros id e s s' Hi Hin H. destruct (is_post id e) eqn:Ep.
  - right. split; [reflexivity|]. apply is_post_eq in Ep. subst e. exact (post_gone id s s' Hi H).
  - left. split; [reflexivity|]. destruct e as [|ok|i ok|i st|i|i ok|i|i|i]; cbn [vstep is_post] in *.
    + destruct (v_main s); [|discriminate]. destruct (v_sem s); injection H as <-; exact Hin.
    + destruct (v_main s); [discriminate|]. destruct ok; injection H as <-; [|exact Hin]. cbn [v_threads]. rewrite map_app, in_app_iff. left. exact Hin.
    + destruct (phase i s) as [[| | | | |]|]; try discriminate. injection H as <-. cbn [v_threads]. rewrite set_fst. exact Hin.
    + destruct (phase i s) as [[| | | | |]|]; try discriminate. injection H as <-. cbn [v_threads]. rewrite set_fst. exact Hin.
    + destruct (phase i s) as [[| | | | |]|]; try discriminate. injection H as <-. cbn [v_threads]. rewrite set_fst. exact Hin.
    + destruct (phase i s) as [[| | | | |]|]; try discriminate. injection H as <-. cbn [v_threads]. rewrite set_fst. exact Hin.
    + destruct (phase i s) as [[| | | | |]|]; try discriminate. injection H as <-. cbn [v_threads]. rewrite set_fst. exact Hin.
    + apply Nat.eqb_neq in Ep. destruct (phase i s) as [[| | | | |]|]; try discriminate. injection H as <-. cbn [v_threads]. apply in_map_iff in Hin. destruct Hin as ([j q] & E & X). cbn [fst] in E. subst j.
      apply (in_fst id q). apply end_in. split; [exact X | congruence].
    + destruct (phase i s) as [[| | | | |]|]; try discriminate; destruct (mem i (v_procs s)); try discriminate; injection H as <-; exact Hin.
Qed.
Lemma live_run : forall id l s s', vinv s -> In id (map fst (v_threads s)) -> vrun l s = Some s' ->
  (posts id l = 0 /\ In id (map fst (v_threads s'))) \/ (posts id l = 1 /\ ~ In id (map fst (v_threads s'))).
Proof.
  intros id l. induction l as [|e l IH]; intros s s' Hi Hin H; cbn [vrun] in H; [injection H as <-; left; split; [reflexivity | exact Hin]|].
  destruct (vstep e s) as [s1|] eqn:E; [|discriminate]. unfold posts in *. cbn [filter]. destruct (live_step id e s s1 Hi Hin E) as [[P X]|[P X]]; rewrite P.
  - exact (IH s1 s' (vstep_inv _ _ _ Hi E) X H).
  - right. destruct (gone_run id l s1 s' X H) as [Z (_ & _ & Y)]. unfold posts in Z. cbn [length]. rewrite Z. split; [reflexivity | exact Y].
Qed.
Lemma not_thread_no_post : forall id l s s', (forall l1 l2, l = l1 ++ EPost id :: l2 -> forall s1, vrun l1 s = Some s1 -> phase id s1 = None) -> vrun l s = Some s' -> posts id l = 0.
Proof.
  intros id l. induction l as [|e l IH]; intros s s' Hp H; [reflexivity|]. cbn [vrun] in H. destruct (vstep e s) as [s1|] eqn:E; [|discriminate]. unfold posts. cbn [filter]. destruct (is_post id e) eqn:Ep.
  - exfalso. apply is_post_eq in Ep. subst e. cbn [vstep] in E. rewrite (Hp [] l eq_refl s eq_refl) in E. discriminate.
  - apply (IH s1 s'); [|exact H]. intros l1 l2 -> s2 X. apply (Hp (e :: l1) l2 eq_refl). cbn [vrun]. rewrite E. exact X.
Qed.
Lemma fresh_no_post : forall id l s s', vinv s -> (v_main s = MCreate id \/ v_next s <= id) -> vrun l s = Some s' ->
  (v_main s' = MCreate id \/ v_next s' <= id) -> posts id l = 0.
Proof.
  intros id l. induction l as [|e l IH]; intros s s' Hi Hf H Hf'; cbn [vrun] in H; [reflexivity|].
  destruct (vstep e s) as [s1|] eqn:E; [|discriminate]. pose proof (vstep_inv _ _ _ Hi E) as Hi1.
  assert (Hn : ~ In id (map fst (v_threads s))).
  { intros X. destruct Hf as [M|M]; [destruct (vi_main _ Hi id M) as (_ & Y & _); exact (Y X)|]. apply in_map_iff in X. destruct X as ([j q] & Ej & X). cbn [fst] in Ej. subst j. pose proof (vi_next _ Hi _ _ X). lia. }
  assert (Hpost : is_post id e = false).
  { destruct (is_post id e) eqn:Ep; [|reflexivity]. apply is_post_eq in Ep. subst e. cbn [vstep] in E. rewrite (phase_none id s Hn) in E. discriminate. }
  unfold posts. cbn [filter]. rewrite Hpost.
  assert (Hg : gone id s1 \/ In id (map fst (v_threads s1)) \/ (v_main s1 = MCreate id \/ v_next s1 <= id)).
  { destruct (in_dec Nat.eq_dec id (map fst (v_threads s1))) as [X|X]; [right; left; exact X|]. destruct (Nat.lt_ge_cases id (v_next s1)) as [L|L]; [|right; right; right; exact L].
    destruct (v_main s1) as [|m] eqn:Em; [left; split; [exact L|]; split; [rewrite Em; discriminate | exact X]|].
    destruct (Nat.eq_dec m id) as [->|N]; [right; right; left; reflexivity|]. left. split; [exact L|]. split; [rewrite Em; congruence | exact X]. }
  destruct Hg as [G|[G|G]].
  - exact (proj1 (gone_run id l s1 s' G H)).
  - exfalso. destruct (live_run id l s1 s' Hi1 G H) as [[_ X]|[P X]].
    + destruct Hf' as [M|M]; [destruct (vi_main _ (vrun_inv _ _ _ Hi1 H) id M) as (_ & Y & _); exact (Y X)|]. apply in_map_iff in X. destruct X as ([j q] & Ej & X). cbn [fst] in Ej. subst j.
      pose proof (vi_next _ (vrun_inv _ _ _ Hi1 H) _ _ X). lia.
    + assert (Q : forall l s s', vinv s -> In id (map fst (v_threads s)) -> vrun l s = Some s' -> id < v_next s' /\ v_main s' <> MCreate id).
      { clear. intros l. induction l as [|e l IH]; intros s s' Hi X H; cbn [vrun] in H.
        - injection H as <-. split.
          + apply in_map_iff in X. destruct X as ([j q] & Ej & X). cbn [fst] in Ej. subst j. exact (vi_next _ Hi _ _ X).
          + intros M. destruct (vi_main _ Hi id M) as (_ & Y & _). exact (Y X).
        - destruct (vstep e s) as [s1|] eqn:E; [|discriminate]. destruct (live_step id e s s1 Hi X E) as [[_ X1]|[_ X1]]; [exact (IH s1 s' (vstep_inv _ _ _ Hi E) X1 H)|].
          destruct (gone_run id l s1 s' X1 H) as [_ (A & B & _)]. split; assumption. }
      destruct (Q l s1 s' Hi1 G H) as [A B]. destruct Hf' as [M|M]; [contradiction | lia].
  - exact (IH s1 s' Hi1 G H Hf').
Qed.
Lemma posted_once : forall l s id, vrun l vinit = Some s -> created id l vinit ->
  (posts id l = 0 /\ In id (map fst (v_threads s))) \/ (posts id l = 1 /\ ~ In id (map fst (v_threads s))).
Proof.
  intros l s id H (l1 & l2 & s1 & -> & H1 & M). rewrite run_app, H1 in H. cbn [vrun] in H. destruct (vstep (ECreated true) s1) as [s2|] eqn:E; [|discriminate].
  pose proof (vrun_inv _ _ _ vinit_inv H1) as Hi1. pose proof (vstep_inv _ _ _ Hi1 E) as Hi2.
  assert (Hin : In id (map fst (v_threads s2))) by (cbn [vstep] in E; rewrite M in E; injection E as <-; cbn [v_threads]; rewrite map_app; apply in_or_app; right; left; reflexivity).
  assert (P1 : posts id l1 = 0) by (apply (fresh_no_post id l1 vinit s1 vinit_inv); [right; cbn; lia | exact H1 | left; exact M]).
  assert (Ha : posts id (l1 ++ ECreated true :: l2) = posts id l2) by (unfold posts in *; rewrite filter_app, app_length, P1; reflexivity).
  rewrite Ha. exact (live_run id l2 s2 s Hi2 Hin H).
Qed.

(** ** Refuted: a failing waitpid, and the environments of refused calls *)
Definition fill (n : nat) : list vevent := flat_map (fun _ => [ECall; ECreated true]) (seq 0 n).
Definition start_all (n : nat) : list vevent := flat_map (fun i => [ECall; ECreated true; EFork i true]) (seq 0 n).
Lemma wait_error_overruns : exists l s, vrun l vinit = Some s /\ length (v_procs s) = VERIFY_LIMIT + 1.
Proof.
  exists (start_all 32 ++ [EWait 0 None; EFreeEnv 0; EEnqueue 0 true; EFreeArg 0; EPost 0; ECall; ECreated true; EFork 32 true]). eexists. split; [vm_compute; reflexivity | vm_compute; reflexivity].
Qed.
Lemma refused_leaks : forall n, exists l s, vrun l vinit = Some s /\ v_main s = MIdle /\ length (v_threads s) <= VERIFY_LIMIT /\ length (v_envs s) = length (v_threads s) + n.
Proof.
  intros n. exists (fill 32 ++ repeat ECall n).
  assert (G : forall k s, v_sem s = 0 -> v_main s = MIdle -> exists s', vrun (repeat ECall k) s = Some s' /\ v_main s' = MIdle /\ v_threads s' = v_threads s /\ length (v_envs s') = length (v_envs s) + k).
  { intros k. induction k as [|k IH]; intros s H1 H2; [exists s; cbn; split; [reflexivity|]; split; [exact H2|]; split; [reflexivity | lia]|].
    cbn [repeat vrun vstep]. rewrite H1, H2. edestruct IH as (s' & A & B & C & D); [| | exists s'; split; [exact A|]; split; [exact B|]; split; [exact C|]; rewrite D; cbn [v_envs length]; lia]; reflexivity. }
  assert (F : exists s0, vrun (fill 32) vinit = Some s0 /\ v_sem s0 = 0 /\ v_main s0 = MIdle /\ length (v_threads s0) = 32 /\ length (v_envs s0) = 32).
  { eexists. split; [vm_compute; reflexivity|]. vm_compute. tauto. }
  destruct F as (s0 & F1 & F2 & F3 & F4 & F5). destruct (G n s0 F2 F3) as (s' & A & B & C & D). exists s'. rewrite run_app, F1. split; [exact A|]. split; [exact B|]. rewrite C, D, F4, F5.
  split; [apply Nat.le_refl | reflexivity].
Qed.
(** A result can be lost *)
Lemma result_lost : exists l s, vrun l vinit = Some s /\ created 0 l vinit /\ v_threads s = [] /\ v_main s = MIdle /\ v_results s = [].
Proof.
  exists [ECall; ECreated true; EFork 0 true; EWait 0 (Some true); EFreeEnv 0; EEnqueue 0 false; EFreeArg 0; EPost 0]. eexists. split; [vm_compute; reflexivity|]. split; [|vm_compute; tauto].
  exists [ECall], [EFork 0 true; EWait 0 (Some true); EFreeEnv 0; EEnqueue 0 false; EFreeArg 0; EPost 0]. eexists. split; [reflexivity|]. split; [vm_compute; reflexivity | reflexivity].
Qed.

(** ** Environments *)
Definition env_owned (R : nat -> Prop) (s : vstate) : Prop := forall id, In id (v_envs s) -> R id \/ v_main s = MCreate id \/ exists p, In (id, p) (v_threads s) /\ has_env p.
Lemma env_step : forall R e s s', vinv s -> env_owned R s -> (e = ECall -> v_sem s = 0 -> v_main s = MIdle -> R (v_next s)) -> vstep e s = Some s' -> env_owned R s'.
Proof.
  intros R e s s' Hi Ho He H. pose proof (vi_ids _ Hi) as Hids.
  assert (Keep : forall id p q, In (id, p) (v_threads s) -> has_env q -> forall i, In i (v_envs s) -> R i \/ v_main s = MCreate i \/ exists r, In (i, r) (set_phase id q (v_threads s)) /\ has_env r).
  { intros id p q Hin Hq i X. destruct (Ho i X) as [Y|[Y|(r & Y & Z)]]; [left; exact Y | right; left; exact Y|]. right. right. destruct (Nat.eq_dec i id) as [->|N].
    - exists q. split; [apply (set_same id q p); exact Hin | exact Hq].
    - exists r. split; [apply set_other; assumption | exact Z]. }
  assert (Drop : forall id p q, In (id, p) (v_threads s) -> ~ has_env p -> forall i, In i (v_envs s) -> R i \/ v_main s = MCreate i \/ exists r, In (i, r) (set_phase id q (v_threads s)) /\ has_env r).
  { intros id p q Hin Hp i X. destruct (Ho i X) as [Y|[Y|(r & Y & Z)]]; [left; exact Y | right; left; exact Y|]. right. right. exists r. split; [|exact Z]. apply set_other; [|exact Y]. intros ->. rewrite (nodup_fst _ _ _ _ Hids Y Hin) in Z. contradiction. }
  destruct e as [|ok|id ok|id st|id|id ok|id|id|id]; cbn [vstep] in H.
  - destruct (v_main s) as [|m] eqn:Em; [|discriminate]. destruct (v_sem s) as [|n]; injection H as <-; (intros i [<-|X]; [|destruct (Ho i X) as [Y|[Y|Y]]; [left; exact Y | congruence | right; right; exact Y]]).
    + left. apply He; reflexivity.
    + right. left. reflexivity.
  - destruct (v_main s) as [|m] eqn:Em; [discriminate|]. destruct ok; injection H as <-; intros i X; cbn [v_threads v_envs] in *.
    + destruct (Ho i X) as [Y|[Y|(p & Y & Z)]]; [left; exact Y | right; right | right; right].
      * assert (m = i) by congruence. subst m. exists TFork. split; [apply in_or_app; right; left; reflexivity | exact I].
      * exists p. split; [apply in_or_app; left; exact Y | exact Z].
    + apply del_in in X. destruct X as [X N]. destruct (Ho i X) as [Y|[Y|Y]]; [left; exact Y | congruence | right; right; exact Y].
  - destruct (phase id s) as [[| | | | |]|] eqn:Ep; try discriminate. injection H as <-. apply phase_in in Ep. intros i X. cbn [v_main v_threads]. apply (Keep id TFork); [exact Ep | destruct ok; exact I | exact X].
  - destruct (phase id s) as [[| | | | |]|] eqn:Ep; try discriminate. injection H as <-. apply phase_in in Ep. intros i X. cbn [v_main v_threads]. apply (Keep id TWait); [exact Ep | exact I | exact X].
  - destruct (phase id s) as [[| |b| | |]|] eqn:Ep; try discriminate. injection H as <-. apply phase_in in Ep. intros i X. cbn [v_main v_threads v_envs] in *. apply del_in in X. destruct X as [X N].
    destruct (Ho i X) as [Y|[Y|(r & Y & Z)]]; [left; exact Y | right; left; exact Y|]. right. right. exists r. split; [apply set_other; assumption | exact Z].
  - destruct (phase id s) as [[| | |b| |]|] eqn:Ep; try discriminate. injection H as <-. apply phase_in in Ep. intros i X. cbn [v_main v_threads]. apply (Drop id (TEnqueue b)); [exact Ep | intros [] | exact X].
  - destruct (phase id s) as [[| | | | |]|] eqn:Ep; try discriminate. injection H as <-. apply phase_in in Ep. intros i X. cbn [v_main v_threads]. apply (Drop id TFreeArg); [exact Ep | intros [] | exact X].
  - destruct (phase id s) as [[| | | | |]|] eqn:Ep; try discriminate. injection H as <-. apply phase_in in Ep. intros i X. cbn [v_main v_threads]. destruct (Ho i X) as [Y|[Y|(r & Y & Z)]]; [left; exact Y | right; left; exact Y|]. right. right. exists r.
    split; [|exact Z]. apply end_in. split; [exact Y|]. intros ->. rewrite (nodup_fst _ _ _ _ Hids Y Ep) in Z. exact Z.
  - assert (E : s' = mk_vstate (v_sem s) (v_main s) (v_threads s) (del id (v_procs s)) (v_envs s) (v_args s) (v_results s) (v_next s) (v_bad s)).
    { destruct (phase id s) as [[| | | | |]|]; try discriminate; destruct (mem id (v_procs s)); try discriminate; injection H as <-; reflexivity. }
    subst s'. exact Ho.
Qed.
Lemma env_freed : forall l s, vrun l vinit = Some s -> forall id, In id (v_envs s) -> refused id l \/ v_main s = MCreate id \/ In id (map fst (v_threads s)).
Proof.
  assert (G : forall l s, vrun l vinit = Some s -> env_owned (fun id => refused id l) s).
  { intros l. induction l as [|e l IH] using rev_ind; intros s H; [injection H as <-; intros id []|].
    rewrite run_app in H. destruct (vrun l vinit) as [s1|] eqn:E1; [|discriminate]. cbn [vrun] in H. destruct (vstep e s1) as [s2|] eqn:E2; [|discriminate]. injection H as <-.
    apply (env_step _ e s1); [exact (vrun_inv _ _ _ vinit_inv E1) | | | exact E2].
    - intros id X. destruct (IH s1 eq_refl id X) as [(l1 & l2 & s0 & -> & Y) | Y]; [left | right; exact Y].
      exists l1, (l2 ++ [e]), s0. split; [rewrite <- app_assoc; reflexivity | exact Y].
    - intros -> A B. exists l, [], s1. auto. }
  intros l s H id X. destruct (G l s H id X) as [Y|[Y|(p & Y & _)]]; [left; exact Y | right; left; exact Y | right; right; exact (in_fst _ _ _ Y)].
Qed.
