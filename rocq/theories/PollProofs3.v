(** Proofs about the polling loop: epoll. *)

From Coq Require Import ZArith List Bool Lia ZifyBool ZifyNat.
From Verif Require Import BufferModel PollModel PollSpec PollProofs PollProofs2.
Import ListNotations.
Local Open Scope Z_scope.

Record einv (s : pst) : Prop := mkEinv {
  ei_base : base s;
  ei_reg : forall fd p, In (fd, p) (p_epoll s) <-> exists o, In (p, o) (p_heap s) /\ o_fd o = fd;
  ei_d : dispatch_ok (tr s);
  ei_c : complete (tr s);
}.

(** Objects other than the one at [p] are still there. *)
Definition keeps (p : nat) (s s' : pst) : Prop :=
  forall q o, q <> p -> In (q, o) (p_heap s) -> In (q, o) (p_heap s').

Definition changes (s s' : pst) : Prop :=
  exists w, tr s' = tr s ++ w /\ forallb is_change w = true.

Lemma epoll_op : forall s o,
  einv s -> exists s', exec_op epoll_register epoll_close s o = Ok s' /\ einv s' /\
    changes s s' /\ (forall p, (forall q, o = OpClose q -> q = p) -> keeps p s s').
Proof.
  intros s o [B R D K].
  assert (SAME : einv s /\ changes s s /\ (forall p, (forall q, o = OpClose q -> q = p) -> keeps p s s)).
  { split; [constructor; assumption|]. split; [exists []; rewrite app_nil_r; auto|].
    intros p _ q o' _ H. exact H. }
  destruct o as [p ty fd|p]; cbn [exec_op].
  - destruct ((fd <? 0) || _) eqn:G; [exists s; tauto|].
    apply orb_false_iff in G. destruct G as [G1 G2].
    apply Z.ltb_ge in G1. apply open_guard in G2. destruct G2 as [G2 G3].
    pose proof (base_open s p ty fd B G1 G2 G3) as B'.
    fold (opened s p ty fd). unfold epoll_register, deref.
    replace (lookup (p_heap (opened s p ty fd)) p) with (Some (mkObj (p_next s) ty fd))
      by (cbn; rewrite Nat.eqb_refl; reflexivity).
    cbn [bind o_fd]. replace (fd <? 0) with false by lia.
    replace (existsb (fun x => fst x =? fd) (p_epoll (opened s p ty fd))) with false.
    2:{ symmetry. apply not_true_iff_false. rewrite existsb_exists. intros ((f & q) & H & E).
        cbn [fst] in E. apply Z.eqb_eq in E. subst f. change (p_epoll _) with (p_epoll s) in H.
        apply R in H. destruct H as (o & Ho & Eo). apply G3.
        apply in_map_iff. exists (q, o). auto. }
    eexists. split; [reflexivity|].
    assert (T : forall v, tr (set_epoll v (opened s p ty fd)) = tr s ++ [EOpen (p_next s) fd])
      by reflexivity.
    split; [|split].
    + constructor; try rewrite T.
      * refine (base_eq (opened s p ty fd) _ _ _ _ B'); reflexivity.
      * intros f q. change (p_epoll (set_epoll ?v _)) with v.
        change (p_heap (set_epoll _ (opened s p ty fd)))
          with ((p, mkObj (p_next s) ty fd) :: p_heap s).
        change (p_epoll (opened s p ty fd)) with (p_epoll s).
        rewrite in_app_iff, R. cbn [In]. split.
        -- intros [(o & Ho & Eo)|[H|[]]].
           ++ exists o. auto.
           ++ injection H as <- <-. eexists. split; [left; reflexivity|reflexivity].
        -- intros (o & [H|H] & Eo).
           ++ injection H as <- <-. cbn [o_fd] in Eo. subst f. auto.
           ++ left. exists o. auto.
      * apply dispatch_ok_snoc; [discriminate|exact D].
      * apply complete_snoc; [discriminate|exact K].
    + exists [EOpen (p_next s) fd]. auto.
    + intros p' _ q o _ H. right. exact H.
  - destruct (lookup (p_heap s) p) as [o|] eqn:L; [|exists s; tauto].
    pose proof (lookup_in _ _ _ L) as Hin.
    pose proof (base_close s p o B Hin) as B'.
    unfold epoll_close, deref. rewrite L. cbn [bind].
    replace (existsb (fun x => fst x =? o_fd o) (p_epoll s)) with true.
    2:{ symmetry. apply existsb_exists. exists (o_fd o, p).
        split; [apply R; exists o; auto|]. cbn [fst]. apply Z.eqb_refl. }
    cbn [bind]. eexists. split; [reflexivity|]. set (s' := say _ _).
    assert (T : tr s' = tr s ++ [EClose (o_id o)]) by reflexivity.
    split; [|split].
    + constructor; try rewrite T.
      * refine (base_eq (closed s p o) _ _ _ _ B'); reflexivity.
      * intros f q. change (p_epoll s') with (filter (fun x => negb (fst x =? o_fd o)) (p_epoll s)).
        change (p_heap s') with (release (p_heap s) p).
        rewrite filter_In, R. cbn [fst]. split.
        -- intros ((o' & Ho' & Eo') & N). exists o'. split; [|exact Eo'].
           apply in_release. split; [exact Ho'|]. cbn [fst]. intros ->.
           assert (XX : (p, o') = (p, o)).
           { apply (nodup_map_eq fst (p_heap s)); auto. apply (b_addr _ B). }
           injection XX as ->. lia.
        -- intros (o' & Ho' & Eo'). apply in_release in Ho'. destruct Ho' as [Ho' N]. cbn [fst] in N.
           split; [exists o'; auto|]. apply negb_true_iff, Z.eqb_neq. intros C. apply N.
           assert (XX : (q, o') = (p, o)).
           { apply (nodup_map_eq (fun x => o_fd (snd x)) (p_heap s)); auto.
             - apply (b_fd _ B).
             - cbn [snd]. congruence. }
           congruence.
      * apply dispatch_ok_snoc; [discriminate|exact D].
      * apply complete_snoc; [discriminate|exact K].
    + exists [EClose (o_id o)]. auto.
    + intros p' H q o' N Hq. change (p_heap s') with (release (p_heap s) p).
      apply in_release. split; [exact Hq|]. cbn [fst]. rewrite (H p eq_refl). exact N.
Qed.

Lemma epoll_ops : forall l s,
  einv s -> exists s', exec_ops epoll_register epoll_close s l = Ok s' /\ einv s' /\
    changes s s' /\ (forall p, (forall q, In (OpClose q) l -> q = p) -> keeps p s s').
Proof.
  induction l as [|o l IH]; intros s I; cbn [exec_ops].
  - exists s. split; [reflexivity|]. split; [exact I|].
    split; [exists []; rewrite app_nil_r; auto|]. intros p _ q o' _ H. exact H.
  - destruct (epoll_op s o I) as (s1 & E1 & I1 & (w1 & T1 & C1) & A1). rewrite E1. cbn [bind].
    destruct (IH s1 I1) as (s2 & E2 & I2 & (w2 & T2 & C2) & A2). exists s2. split; [exact E2|].
    split; [exact I2|]. split.
    + exists (w1 ++ w2). rewrite T2, T1, app_assoc. split; [reflexivity|].
      rewrite forallb_app, C1, C2. reflexivity.
    + intros p H q o' N Hq. apply (A2 p); [|exact N|].
      * intros q' Hq'. apply H. right. exact Hq'.
      * apply (A1 p); [|exact N|exact Hq]. intros q' ->. apply H. left. reflexivity.
Qed.

Definition good (r : res pst) : Prop :=
  match r with Ok s => einv s | UB => False | _ => True end.

Definition rep1 (s : pst) (e : eev) : Z * bool * bool :=
  (epoll_fd_of s (e_ptr e), e_in e, e_err e).

Section Round.
  Variable handler : pst -> nat -> list op.
  Hypothesis H_careful : careful handler.
  Variable t1 : list ev.
  Variable g : eev -> Z * bool * bool.
  Variable rep : list (Z * bool * bool).
  Hypothesis H_g : forall e, snd (fst (g e)) = e_in e /\ snd (g e) = e_err e.

  (** the events [l] are still to be handled *)
  Record emid (l : list eev) (s : pst) : Prop := mkEmid {
    em_inv : einv s;
    em_nd : NoDup (map e_ptr l);
    em_rep : exists l0 u, rep = map g (l0 ++ l) /\
      tr s = t1 ++ EPoll rep :: u /\ existsb is_poll u = false /\
      Forall2 (fun d r => is_open t1 (fst (fst d)) (fst (fst r)) /\
                          snd (fst d) = snd (fst r) /\ snd d = snd r)
              (flat_map ready_disp u) (filter nonzero (map g l0));
    em_obj : forall e, In e l -> exists o,
      In (e_ptr e, o) (p_heap s) /\ o_fd o = fst (fst (g e)) /\ is_open t1 (o_id o) (o_fd o);
  }.

  Lemma flat_change : forall w, forallb is_change w = true -> flat_map ready_disp w = [].
  Proof.
    induction w as [|e w IH]; cbn; intros H; [reflexivity|].
    apply andb_true_iff in H. destruct H as [H1 H2]. rewrite IH by exact H2.
    destruct e; cbn in *; try discriminate; reflexivity.
  Qed.

  Lemma ehandle_ok : forall e l s,
    emid (e :: l) s ->
    match handle_fd epoll_register epoll_close handler s (e_ptr e) (e_in e) (e_err e) with
    | Ok s' => emid l s'
    | UB => False
    | _ => True
    end.
  Proof.
    intros e l s [I ND (l0 & u & ER & T & NP & FA) OB].
    destruct (OB e (or_introl eq_refl)) as (o & Ho & Eo & Op1).
    pose proof (ei_base _ I) as B.
    pose proof (in_lookup _ _ _ (b_addr _ B) Ho) as L.
    destruct (b_live _ B _ _ Ho) as [Op _].
    destruct (H_g e) as [Gi Ge].
    unfold handle_fd, deref. rewrite L. cbn [bind].
    set (s1 := say (EDisp (o_id o) (e_in e) (e_err e)) s).
    cbn [map] in ND. inversion ND as [|? ? N1 N2]; subst.
    assert (T1 : tr s1 = t1 ++ EPoll rep :: (u ++ [EDisp (o_id o) (e_in e) (e_err e)])).
    { unfold s1. rewrite tr_say, T, <- app_assoc. reflexivity. }
    assert (I1 : einv s1).
    { destruct I as [B0 R D K]. constructor.
      - apply base_say; [reflexivity|exact B].
      - exact R.
      - unfold s1. rewrite tr_say.
        apply (dispatch_ok_disp _ _ _ _ t1 rep u (o_fd o)); auto.
        rewrite ER, map_app, in_app_iff. right. left. rewrite Eo, <- Gi, <- Ge.
        destruct (g e) as [[? ?] ?]. reflexivity.
      - unfold s1. rewrite tr_say. apply complete_snoc; [discriminate|exact K]. }
    assert (AL : forall s', einv s' -> changes s1 s' -> keeps (e_ptr e) s1 s' -> emid l s').
    { intros s' I' (w & Tw & Cw) Kp. constructor.
      - exact I'.
      - exact N2.
      - exists (l0 ++ [e]), ((u ++ [EDisp (o_id o) (e_in e) (e_err e)]) ++ w).
        split; [rewrite ER, <- app_assoc; reflexivity|].
        rewrite Tw, T1. split; [rewrite <- app_assoc; reflexivity|].
        split; [rewrite !existsb_app, NP, (change_not_poll _ Cw); reflexivity|].
        rewrite !flat_map_app, (flat_change _ Cw), map_app, filter_app, app_nil_r.
        apply Forall2_app; [exact FA|].
        cbn [flat_map ready_disp map filter]. rewrite app_nil_r.
        destruct (g e) as [[f gi] ge]. cbn [fst snd] in *. subst gi ge. unfold nonzero.
        destruct (e_in e || e_err e); [|constructor].
        constructor; [|constructor]. cbn [fst snd]. rewrite <- Eo. auto.
      - intros e' He'. destruct (OB e' (or_intror He')) as (o' & Ho' & Eo' & Op').
        exists o'. split; [|auto]. apply Kp; [|exact Ho'].
        intros C. apply N1. rewrite <- C. apply in_map. exact He'. }
    assert (M1 : emid l s1).
    { apply AL; [exact I1| |].
      - exists []. rewrite app_nil_r. auto.
      - intros q o' _ H. exact H. }
    assert (A1 : exists s', exec_ops epoll_register epoll_close s1 (handler s1 (e_ptr e)) = Ok s' /\ emid l s').
    { destruct (epoll_ops (handler s1 (e_ptr e)) s1 I1) as (s' & E' & I' & C' & K').
      exists s'. split; [exact E'|]. apply AL; [exact I'|exact C'|].
      apply K'. intros q Hq. exact (H_careful _ _ _ Hq). }
    destruct A1 as (s' & E' & M').
    destruct (o_type o); cbn [bind]; try exact Logic.I;
      destruct (e_in e); rewrite ?E'; cbn [bind]; destruct (e_err e); try exact Logic.I;
      (exact M' || exact M1).
  Qed.

  Lemma eloop_ok : forall l s,
    emid l s ->
    match epoll_loop handler l s with
    | Ok s' => emid [] s'
    | UB => False
    | _ => True
    end.
  Proof.
    induction l as [|e l IH]; intros s M; cbn [epoll_loop]; [exact M|].
    pose proof (ehandle_ok e l s M) as H.
    destruct (handle_fd epoll_register epoll_close handler s (e_ptr e) (e_in e) (e_err e))
      as [s'| | |]; auto.
    cbn [bind]. apply IH. exact H.
  Qed.
End Round.

Lemma epoll_fd_ok : forall s p o,
  einv s -> In (p, o) (p_heap s) -> epoll_fd_of s p = o_fd o.
Proof.
  intros s p o I Ho. unfold epoll_fd_of.
  destruct (find (fun x => Nat.eqb (snd x) p) (p_epoll s)) as [[fd q]|] eqn:E.
  - apply find_some in E. destruct E as [E1 E2]. cbn [snd] in E2. apply Nat.eqb_eq in E2. subst q.
    apply (ei_reg _ I) in E1. destruct E1 as (o' & Ho' & <-).
    assert (XX : (p, o') = (p, o)).
    { apply (nodup_map_eq fst (p_heap s)); auto. apply (b_addr _ (ei_base _ I)). }
    congruence.
  - exfalso. pose proof (proj2 (ei_reg _ I (o_fd o) p) (ex_intro _ o (conj Ho eq_refl))) as H.
    pose proof (find_none _ _ E _ H) as C. cbn [snd] in C. rewrite Nat.eqb_refl in C. discriminate.
Qed.

Lemma ehandle_round : forall handler l s,
  careful handler -> einv s -> epoll_can s l -> good (epoll_handle handler (EAReady l) s).
Proof.
  intros handler l s HC I (_ & ND & IN). cbn [epoll_handle].
  change (map (fun e => (epoll_fd_of s (e_ptr e), e_in e, e_err e)) l) with (map (rep1 s) l).
  set (s1 := say (EPoll (map (rep1 s) l)) s).
  assert (M : emid (tr s) (rep1 s) (map (rep1 s) l) l s1).
  { constructor.
    - destruct I as [B R D K]. constructor.
      + apply base_say; [reflexivity|exact B].
      + exact R.
      + unfold s1. rewrite tr_say. apply dispatch_ok_snoc; [discriminate|exact D].
      + unfold s1. rewrite tr_say. apply complete_snoc; [discriminate|exact K].
    - exact ND.
    - exists [], []. split; [reflexivity|]. split; [reflexivity|]. split; [reflexivity|constructor].
    - intros e He. specialize (IN e He). apply in_map_iff in IN.
      destruct IN as ((fd & p) & E & H). cbn [snd] in E. subst p.
      apply (ei_reg _ I) in H. destruct H as (o & Ho & <-). exists o.
      split; [exact Ho|]. split; [cbn [rep1 fst]; symmetry; apply epoll_fd_ok; assumption|].
      exact (proj1 (b_live _ (ei_base _ I) _ _ Ho)). }
  pose proof (eloop_ok handler HC (tr s) (rep1 s) (map (rep1 s) l) ltac:(auto) l s1 M) as H.
  destruct (epoll_loop handler l s1) as [s'| | |]; auto.
  cbn [bind good]. destruct H as [[B R D K] _ (l0 & u & ER & T & NP & FA) _].
  rewrite app_nil_r in ER. constructor.
  - apply base_say; [reflexivity|exact B].
  - exact R.
  - rewrite tr_say. apply dispatch_ok_snoc; [discriminate|exact D].
  - rewrite tr_say. apply (complete_end _ _ _ _ K T NP). intros _. rewrite ER. exact FA.
Qed.

Lemma einv_start : einv start.
Proof.
  constructor.
  - exact base_start.
  - intros fd p. cbn. split; [intros []|]. intros (o & [] & _).
  - intros t1 id i e t2 H. destruct t1; discriminate.
  - intros t1 rep u t2 H. destruct t1; discriminate.
Qed.

Lemma epoll_run_ok : forall handler r, careful handler -> epoll_run handler r -> good r.
Proof.
  intros handler r HC H. induction H as [|s r H IH S].
  - exact einv_start.
  - cbn [good] in IH. destruct S as [l C|a [-> | ->]|l].
    + apply ehandle_round; assumption.
    + exact IH.
    + exact Logic.I.
    + destruct (epoll_ops l s IH) as (s' & E & I' & _). rewrite E. exact I'.
Qed.

Lemma epoll_run_spec : forall handler r,
  careful handler -> epoll_run handler r ->
  match r with
  | Ok s => distinct (rev (p_trace s)) /\ dispatch_ok (rev (p_trace s)) /\
            complete (rev (p_trace s))
  | UB => False
  | _ => True
  end.
Proof.
  intros handler r HC H. apply epoll_run_ok in H; [|exact HC]. destruct r as [s| | |]; auto.
  destruct H as [B F D K]. split; [exact (base_distinct _ B)|]. auto.
Qed.
