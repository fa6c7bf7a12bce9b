From Coq Require Import Lia ZifyBool ZifyNat ZifyN.
From Verif Require Import Base BaseLemmas BufferModel AddrModel AsyncModel AsyncSpec AsyncProofs.
Local Open Scope N_scope.

(** [js]: jobs started; [pend]: notifications in the queue *)
Record inv (js : list job) (pend : list call) (s : astate) : Prop := {
  i_threads : length (a_threads s) = length js;
  i_jobs : forall t j th, nth_error js t = Some j -> nth t (a_threads s) None = Some th -> thread_of j th;
  i_queue : Forall2 carries (a_queue s) pend;
  i_main : forall len, a_main s = MPeeked len -> exists d q, a_queue s = d :: q /\ len = hdr_len d }.

Lemma inv_init : inv [] [] ainit.
Proof. split; [reflexivity| |constructor|discriminate]. intros [|t] j th H; discriminate. Qed.

Lemma replace_length : forall {A} n (x : A) l, length (replace n x l) = length l.
Proof. intros A n x l. revert n. induction l as [|y l IH]; intros [|n]; cbn; auto. Qed.
Lemma replace_nth : forall {A} n m (x d : A) l, nth m (replace n x l) d = if (Nat.eqb m n && Nat.ltb n (length l))%bool then x else nth m l d.
Proof.
  intros A n m x d l. revert n m. induction l as [|y l IH]; intros n m.
  - destruct n; cbn; destruct m; rewrite ?andb_false_r; reflexivity.
  - destruct n as [|n], m as [|m]; cbn [replace nth length]; try reflexivity. rewrite IH. cbn [Nat.eqb].
    replace (Nat.ltb (S n) (S (length l))) with (Nat.ltb n (length l)) by lia. reflexivity.
Qed.

Lemma push_carries : forall q pend d c ok, Forall2 carries q pend -> carries d c ->
  Forall2 carries (push ok d q) (pend ++ if ok then [c] else []).
Proof.
  intros q pend d c [|] Hq Hd; cbn [push].
  - apply Forall2_app; [exact Hq|]. constructor; [exact Hd|constructor].
  - rewrite app_nil_r. exact Hq.
Qed.
Lemma push_main : forall q d ok len m, (forall len, m = MPeeked len -> exists d q', q = d :: q' /\ len = hdr_len d) ->
  m = MPeeked len -> exists d' q', push ok d q = d' :: q' /\ len = hdr_len d'.
Proof.
  intros q d ok len m Hm E. destruct (Hm len E) as (d' & q' & -> & E'). destruct ok; cbn [push app]; eauto.
Qed.

(** One step: the notifications sent by it are appended, those handled are taken from
    the front *)
Lemma step_ok : forall js pend e s r js', inv js pend s -> (forall j, In j js -> job_ok j) -> event_ok e ->
  astep e s = Some r -> (forall j, e = EStart j -> nth_error js' (length js) = Some j) -> (forall t, (t < length js)%nat -> nth_error js' t = nth_error js t) ->
  exists s' pend', r = Ok s' /\ inv (js ++ jobs [e]) pend' s' /\
    a_calls s' ++ pend' = a_calls s ++ pend ++ sent_by js' e /\
    (forall t, nth t (a_threads s') None <> None -> nth t (a_threads s) None <> None \/ (length js <= t)%nat) /\
    (forall t a ok, e = EDone t a ok -> nth t (a_threads s) None <> None /\ nth t (a_threads s') None = None /\ (t < length js)%nat) /\
    exists new, a_calls s' = a_calls s ++ new.
Proof.
  intros js pend e s r js' HI Hjs He Hstep Hnew Hold. destruct HI as [Ht Hj Hq Hm].
  destruct e as [j|t a ok|ok| |]; cbn [astep jobs sent_by event_ok] in *; rewrite ?app_nil_r.
  - destruct (a_main s) eqn:Em; [|discriminate]. injection Hstep as <-.
    destruct (prepare_ok j He) as (th & Hth). rewrite Hth. cbn [bind].
    eexists. exists pend. split; [reflexivity|]. cbn [a_calls a_threads]. split; [|split; [reflexivity|split; [|split; [discriminate|exists []; rewrite app_nil_r; reflexivity]]]].
    + split; cbn [a_threads a_queue a_main].
      * rewrite !app_length. cbn [length]. lia.
      * intros t j' th' H1 H2. destruct (Nat.lt_ge_cases t (length js)) as [Hc|Hc].
        -- rewrite nth_error_app1 in H1 by exact Hc. rewrite app_nth1 in H2 by lia. eauto.
        -- rewrite nth_error_app2 in H1 by exact Hc. rewrite app_nth2 in H2 by lia.
           rewrite Ht in H2. destruct (t - length js)%nat as [|k].
           ++ cbn in H1, H2. injection H1 as <-. injection H2 as <-. exact Hth.
           ++ destruct k; discriminate.
      * exact Hq.
      * discriminate.
    + intros t H. destruct (Nat.lt_ge_cases t (length js)) as [Hc|Hc]; [left|right; exact Hc].
      rewrite app_nth1 in H by lia. exact H.
  - destruct (nth t (a_threads s) None) as [th|] eqn:Eth; [|discriminate].
    destruct (thread_result th a) as [r'|] eqn:Er; [|discriminate]. injection Hstep as <-.
    assert (Hlt : (t < length js)%nat).
    { rewrite <- Ht. destruct (Nat.lt_ge_cases t (length (a_threads s))) as [Hc|Hc]; [exact Hc|]. rewrite nth_overflow in Eth by exact Hc. discriminate. }
    destruct (nth_error js t) as [j|] eqn:Ej; [|apply nth_error_None in Ej; lia].
    destruct (result_ok j th a r' (Hjs j (nth_error_In _ _ Ej)) (Hj t j th Ej Eth) He Er) as (d & c & -> & Hc & Hd). cbn [bind].
    eexists. exists (pend ++ if ok then [c] else []). split; [reflexivity|]. cbn [a_calls a_threads].
    split; [|split; [|split; [|split; [|exists []; rewrite app_nil_r; reflexivity]]]].
    + split; cbn [a_threads a_queue a_main].
      * rewrite replace_length. exact Ht.
      * intros t' j' th' H1 H2. rewrite replace_nth in H2. destruct (_ && _)%bool; [discriminate|]. eauto.
      * apply push_carries; assumption.
      * intros len E. apply (push_main _ d ok len _ Hm E).
    + destruct ok; [rewrite (Hold t Hlt), Ej, Hc; reflexivity|reflexivity].
    + intros t' H. left. rewrite replace_nth in H. destruct (_ && _)%bool; [congruence|exact H].
    + intros t' a' ok' E. injection E as -> -> ->. split; [congruence|]. split; [|exact Hlt].
      rewrite replace_nth, Nat.eqb_refl. replace (Nat.ltb _ _) with true by lia. reflexivity.
  - injection Hstep as <-. eexists. exists (pend ++ if ok then [CNop] else []). split; [reflexivity|]. cbn [a_calls a_threads].
    split; [|split; [destruct ok; reflexivity|split; [auto|split; [discriminate|exists []; rewrite app_nil_r; reflexivity]]]].
    split; cbn [a_threads a_queue a_main]; auto.
    + apply push_carries; [exact Hq|exact nop_carries].
    + intros len E. apply (push_main _ (datagram NOP []) ok len _ Hm E).
  - destruct (a_main s) eqn:Em; [|discriminate]. destruct (a_queue s) as [|d q] eqn:Eq; [discriminate|]. injection Hstep as <-.
    inversion Hq as [|? c ? pend' (Hd & Hr) Hq' E1 E2]. subst.
    unfold mread. cbn [Nat.add]. replace (Nat.leb HDR_SIZE (length d)) with true by (unfold HDR_SIZE; lia). cbn [bind].
    eexists. exists (c :: pend'). split; [reflexivity|]. cbn [a_calls a_threads].
    split; [|split; [reflexivity|split; [auto|split; [discriminate|exists []; rewrite app_nil_r; reflexivity]]]].
    split; cbn [a_threads a_queue a_main]; auto.
    intros len E. injection E as <-. exists d, q. split; reflexivity.
  - destruct (a_main s) as [|len] eqn:Em; [discriminate|].
    destruct (Hm len eq_refl) as (d & q & Eq & El). rewrite Eq in *. injection Hstep as <-.
    inversion Hq as [|? c ? pend' (Hd & Hr) Hq' E1 E2]. subst. rewrite Hr. cbn [bind].
    eexists. exists pend'. split; [reflexivity|]. cbn [a_calls a_threads].
    split; [|split; [rewrite <- app_assoc; reflexivity|split; [auto|split; [discriminate|exists [c]; reflexivity]]]].
    split; cbn [a_threads a_queue a_main]; auto. discriminate.
Qed.

Lemma jobs_app : forall a b, jobs (a ++ b) = jobs a ++ jobs b.
Proof. induction a as [|[] a IH]; intros b; cbn; rewrite ?IH; reflexivity. Qed.

Lemma run_ok : forall es js pend s r, inv js pend s -> (forall j, In j js -> job_ok j) -> Forall event_ok es ->
  arun es s = Some r ->
  exists s' pend', r = Ok s' /\ inv (js ++ jobs es) pend' s' /\
    a_calls s' ++ pend' = a_calls s ++ pend ++ flat_map (sent_by (js ++ jobs es)) es /\
    NoDup (ended es) /\ (forall t, In t (ended es) -> (t < length (js ++ jobs es))%nat /\ ((length js <= t)%nat \/ nth t (a_threads s) None <> None)).
Proof.
  induction es as [|e es IH]; intros js pend s r HI Hjs Hes Hrun; cbn [arun] in Hrun.
  - injection Hrun as <-. exists s, pend. cbn. rewrite !app_nil_r. split; [reflexivity|]. split; [exact HI|]. split; [reflexivity|]. split; [constructor|]. intros t [].
  - inversion_clear Hes as [|? ? He Hes']. destruct (astep e s) as [r1|] eqn:Es; [|discriminate].
    destruct (step_ok js pend e s r1 (js ++ jobs (e :: es)) HI Hjs He Es) as (s1 & pend1 & -> & HI1 & Hc1 & Hmon & Hend & _).
    { intros j ->. cbn [jobs]. rewrite nth_error_app2, Nat.sub_diag by lia. reflexivity. }
    { intros t Hlt. apply nth_error_app1. exact Hlt. }
    assert (EJ : (js ++ jobs [e]) ++ jobs es = js ++ jobs (e :: es)).
    { rewrite <- app_assoc. f_equal. change (e :: es) with ([e] ++ es). symmetry. apply jobs_app. }
    destruct (IH (js ++ jobs [e]) pend1 s1 r HI1) as (s2 & pend2 & -> & HI2 & Hc2 & Hnd & Hin).
    { intros j Hj. apply in_app_or in Hj. destruct Hj as [Hj|Hj]; [auto|]. destruct e; cbn in Hj; try contradiction. destruct Hj as [->|[]]. exact He. }
    { exact Hes'. } { exact Hrun. }
    rewrite EJ in *.
    exists s2, pend2. split; [reflexivity|]. split; [exact HI2|]. split; [|].
    + rewrite Hc2. rewrite app_assoc, Hc1. cbn [flat_map]. rewrite <- !app_assoc. reflexivity.
    + assert (Hin' : forall t, In t (ended es) -> (length js <= t)%nat \/ nth t (a_threads s) None <> None).
      { intros t Ht. destruct (Hin t Ht) as (_ & [H|H]).
        - left. rewrite app_length in H. lia.
        - destruct (Hmon t H) as [H'|H']; [right; exact H'|left; exact H']. }
      destruct e as [j|t a ok|ok| |]; cbn [ended flat_map app] in *; fold (ended es) in *;
        try (split; [exact Hnd|intros t' Ht; split; [exact (proj1 (Hin t' Ht))|exact (Hin' t' Ht)]]).
      destruct (Hend t a ok eq_refl) as (H1 & H2 & H3). split.
      * constructor; [|exact Hnd]. intros Hc. destruct (Hin t Hc) as (_ & [H|H]); [|contradiction].
        cbn [jobs] in H. rewrite app_nil_r in H. lia.
      * intros t' [->|Ht]; [|split; [exact (proj1 (Hin t' Ht))|exact (Hin' t' Ht)]].
        split; [rewrite app_length; lia|right; exact H1].
Qed.

Lemma delivered : forall es r, Forall event_ok es -> arun es ainit = Some r ->
  exists s pend, r = Ok s /\ a_calls s ++ pend = sent es /\ length (a_queue s) = length pend.
Proof.
  intros es r Hes Hrun. destruct (run_ok es [] [] ainit r inv_init) as (s & pend & -> & HI & Hc & _); auto.
  { intros j []. }
  exists s, pend. split; [reflexivity|]. split; [exact Hc|]. pose proof (i_queue _ _ _ HI) as HQ. clear - HQ. induction HQ; cbn; auto.
Qed.

Lemma once : forall es r, Forall event_ok es -> arun es ainit = Some r ->
  NoDup (ended es) /\ forall t, In t (ended es) -> (t < length (jobs es))%nat.
Proof.
  intros es r Hes Hrun. destruct (run_ok es [] [] ainit r inv_init) as (s & pend & _ & _ & _ & Hnd & Hin); auto.
  { intros j []. }
  split; [exact Hnd|]. intros t Ht. apply (Hin t Ht).
Qed.

(** Draining the queue *)
Lemma drain : forall n js pend s, inv js pend s -> a_main s = MIdle -> length pend = n ->
  exists s', arun (concat (repeat [EPeek; ERecv] n)) s = Some (Ok s') /\ a_calls s' = a_calls s ++ pend /\ a_queue s' = [].
Proof.
  induction n as [|n IH]; intros js pend s HI Hm Hn.
  - destruct pend; [|discriminate]. exists s. split; [reflexivity|]. rewrite app_nil_r. split; [reflexivity|].
    pose proof (i_queue _ _ _ HI) as H. inversion H. reflexivity.
  - destruct pend as [|c pend]; [discriminate|]. pose proof (i_queue _ _ _ HI) as HQ.
    inversion HQ as [|d ? q ? (Hd & Hr) Hq' E1 E2]. subst.
    cbn [repeat concat app arun astep]. rewrite Hm, <- E1.
    unfold mread at 1. cbn [Nat.add]. replace (Nat.leb HDR_SIZE (length d)) with true by (unfold HDR_SIZE; lia). cbn [bind a_main a_queue].
    change (le_val _) with (hdr_len d). rewrite Hr. cbn [bind].
    destruct (IH js pend (mk_astate q MIdle (a_threads s) (a_calls s ++ [c]))) as (s' & E & Hc & Hq).
    { destruct HI as [H1 H2 _ _]. split; cbn [a_threads a_queue a_main]; auto. discriminate. }
    { reflexivity. } { cbn [length] in Hn. lia. }
    exists s'. split; [exact E|]. rewrite Hc. cbn [a_calls]. rewrite <- app_assoc. split; [reflexivity|exact Hq].
Qed.

Lemma drained : forall es s, Forall event_ok es -> arun es ainit = Some (Ok s) ->
  exists rest s', arun (es ++ rest) ainit = Some (Ok s') /\ a_calls s' = sent es /\ a_queue s' = [] /\
    Forall (fun e => e = EPeek \/ e = ERecv) rest.
Proof.
  intros es s Hes Hrun. destruct (run_ok es [] [] ainit _ inv_init (fun j (H : In j []) => match H with end) Hes Hrun) as (s1 & pend & E & HI & Hc & _).
  injection E as <-. cbn [a_calls ainit app] in Hc.
  assert (HA : forall a b s0, arun (a ++ b) s0 = match arun a s0 with Some (Ok s1) => arun b s1 | o => o end).
  { clear. induction a as [|e a IH]; intros b s0; [reflexivity|]. cbn [app arun]. destruct (astep e s0) as [[]|]; auto. }
  assert (HF : forall n, Forall (fun e => e = EPeek \/ e = ERecv) (concat (repeat [EPeek; ERecv] n))).
  { induction n as [|n IH]; [constructor|]. cbn. constructor; [auto|constructor; auto]. }
  destruct (a_main s) as [|len] eqn:Em.
  - destruct (drain _ _ pend s HI Em eq_refl) as (s' & E & Hc' & Hq).
    exists (concat (repeat [EPeek; ERecv] (length pend))), s'. rewrite HA, Hrun.
    split; [exact E|]. split; [rewrite Hc'; exact Hc|]. split; [exact Hq|apply HF].
  - destruct (i_main _ _ _ HI len Em) as (d & q & Eq & El). pose proof (i_queue _ _ _ HI) as HQ. rewrite Eq in HQ.
    inversion HQ as [|? c ? pend' (Hd & Hr) Hq' E1 E2]. subst.
    destruct (drain (length pend') ([] ++ jobs es) pend' (mk_astate q MIdle (a_threads s) (a_calls s ++ [c]))) as (s' & E & Hc' & Hq).
    { destruct HI as [H1 H2 _ _]. split; cbn [a_threads a_queue a_main]; auto. discriminate. }
    { reflexivity. } { reflexivity. }
    exists (ERecv :: concat (repeat [EPeek; ERecv] (length pend'))), s'. rewrite HA, Hrun.
    cbn [arun astep]. rewrite Em, Eq, Hr. cbn [bind].
    split; [exact E|]. split; [rewrite Hc'; cbn [a_calls]; rewrite <- app_assoc; exact Hc|]. split; [exact Hq|].
    constructor; [auto|apply HF].
Qed.
