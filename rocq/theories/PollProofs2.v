(** Proofs about the polling loop: poll and select. *)

From Coq Require Import ZArith List Bool Lia ZifyBool ZifyNat.
From Verif Require Import BufferModel PollModel PollSpec PollProofs.
Import ListNotations.
Local Open Scope Z_scope.

(** ** The vector of addresses *)

Definition fds_ok (s : pst) : Prop :=
  forall i p, nth_error (p_fds s) i = Some (Some p) <->
              exists o, In (p, o) (p_heap s) /\ o_fd o = Z.of_nat i.

Lemma put_length : forall {A} (l : list A) i x, length (put l i x) = length l.
Proof. induction l as [|y l IH]; destruct i; cbn; intros; auto. Qed.

Lemma put_same : forall {A} (l : list A) i x, (i < length l)%nat -> nth_error (put l i x) i = Some x.
Proof.
  induction l as [|y l IH]; destruct i; cbn [length put nth_error]; intros x H; auto; try lia.
  apply IH. lia.
Qed.

Lemma put_other : forall {A} (l : list A) i j x, i <> j -> nth_error (put l i x) j = nth_error l j.
Proof.
  induction l as [|y l IH]; destruct i, j; cbn [put nth_error]; intros x H; auto; try congruence.
Qed.

Lemma nth_pad : forall (l : list (option nat)) k i p,
  nth_error (l ++ repeat None k) i = Some (Some p) <-> nth_error l i = Some (Some p).
Proof.
  intros l k i p. destruct (Nat.lt_ge_cases i (length l)) as [H|H].
  - rewrite nth_error_app1 by exact H. tauto.
  - rewrite nth_error_app2 by exact H.
    assert (E : nth_error l i = None) by (apply nth_error_None; exact H).
    rewrite E. split; [|discriminate]. intros C.
    apply nth_error_In in C. apply repeat_spec in C. discriminate.
Qed.

(** The descriptors in the vector *)
Fixpoint idx (k : Z) (l : list (option nat)) : list Z :=
  match l with
  | [] => []
  | None :: l' => idx (k + 1) l'
  | Some _ :: l' => k :: idx (k + 1) l'
  end.

Lemma idx_in : forall l k z,
  In z (idx k l) <-> exists i p, nth_error l i = Some (Some p) /\ z = k + Z.of_nat i.
Proof.
  induction l as [|[q|] l IH]; intros k z; cbn [idx].
  - split; [intros []|]. intros ([|i] & p & H & _); discriminate.
  - cbn [In]. rewrite IH. split.
    + intros [<-|(i & p & H & ->)].
      * exists O, q. split; [reflexivity|lia].
      * exists (S i), p. split; [exact H|lia].
    + intros ([|i] & p & H & ->); [left; lia|].
      right. exists i, p. split; [exact H|lia].
  - rewrite IH. split.
    + intros (i & p & H & ->). exists (S i), p. split; [exact H|lia].
    + intros ([|i] & p & H & ->); [discriminate|]. exists i, p. split; [exact H|lia].
Qed.

Lemma idx_nodup : forall l k, NoDup (idx k l).
Proof.
  induction l as [|[q|] l IH]; intros k; cbn [idx]; [constructor| |apply IH].
  constructor; [|apply IH]. rewrite idx_in. intros (i & p & _ & E). lia.
Qed.

Lemma build_ok : forall s fds k,
  (forall i p, nth_error fds i = Some (Some p) ->
     exists o, lookup (p_heap s) p = Some o /\ o_fd o = k + Z.of_nat i) ->
  build s fds = Ok (map (fun z => (z, false, false)) (idx k fds)).
Proof.
  induction fds as [|[q|] fds IH]; intros k H; cbn [build idx map]; [reflexivity| |].
  - destruct (H O q eq_refl) as (o & L & E). unfold deref. rewrite L. cbn [bind].
    rewrite (IH (k + 1)).
    + cbn [bind]. replace (o_fd o) with k by lia. reflexivity.
    + intros i p Hi. destruct (H (S i) p Hi) as (o' & L' & E'). exists o'. split; [exact L'|lia].
  - apply IH. intros i p Hi. destruct (H (S i) p Hi) as (o' & L' & E'). exists o'. split; [exact L'|lia].
Qed.

Definition pfd (r : Z * bool * bool) : Z := fst (fst r).

Record pinv (s : pst) : Prop := mkPinv {
  pi_base : base s;
  pi_fds : fds_ok s;
  pi_poll : p_pollfds s = [] \/ map pfd (p_pollfds s) = idx 0 (p_fds s);
  pi_d : dispatch_ok (tr s);
  pi_p : poll_ok (tr s);
  pi_c : complete (tr s);
}.

(** ** What handlers do *)

(** [s'] after opening and closing from [s] *)
Definition after (s s' : pst) : Prop :=
  s' = s \/
  (p_pollfds s' = [] /\
   exists w, tr s' = tr s ++ w /\ w <> [] /\ forallb is_change w = true).

Lemma after_trans : forall s1 s2 s3, after s1 s2 -> after s2 s3 -> after s1 s3.
Proof.
  intros s1 s2 s3 [->|(P & w & T & N & C)] H; [exact H|].
  destruct H as [->|(P' & w' & T' & N' & C')].
  - right. split; [exact P|]. exists w. auto.
  - right. split; [exact P'|]. exists (w ++ w'). rewrite T', T, app_assoc.
    split; [reflexivity|]. split; [destruct w; [tauto|discriminate]|].
    rewrite forallb_app, C, C'. reflexivity.
Qed.

Lemma change_snoc : forall t e,
  is_change e = true -> dispatch_ok t -> poll_ok t -> complete t ->
  dispatch_ok (t ++ [e]) /\ poll_ok (t ++ [e]) /\ complete (t ++ [e]).
Proof.
  intros t e C D P K. split; [|split].
  - apply dispatch_ok_snoc; [|exact D]. intros id i er ->. discriminate.
  - apply poll_ok_snoc; [|exact P]. destruct e; try discriminate; reflexivity.
  - apply complete_snoc; [|exact K]. intros ->. discriminate.
Qed.

Lemma poll_op : forall s o,
  pinv s -> exists s', exec_op poll_register poll_close s o = Ok s' /\ pinv s' /\ after s s'.
Proof.
  intros s o I. destruct I as [B F PF D P K]. destruct o as [p ty fd|p]; cbn [exec_op].
  - destruct ((fd <? 0) || _) eqn:G.
    { exists s. split; [reflexivity|]. split; [constructor; assumption|left; reflexivity]. }
    apply orb_false_iff in G. destruct G as [G1 G2].
    apply Z.ltb_ge in G1. apply open_guard in G2. destruct G2 as [G2 G3].
    pose proof (base_open s p ty fd B G1 G2 G3) as B'.
    fold (opened s p ty fd). unfold poll_register, deref.
    replace (lookup (p_heap (opened s p ty fd)) p) with (Some (mkObj (p_next s) ty fd))
      by (cbn; rewrite Nat.eqb_refl; reflexivity).
    cbn [bind o_fd]. replace (fd <? 0) with false by lia.
    eexists. split; [reflexivity|].
    assert (T : forall v w, tr (set_pollfds v (set_fds w (opened s p ty fd))) =
                            tr s ++ [EOpen (p_next s) fd]) by reflexivity.
    destruct (change_snoc (tr s) (EOpen (p_next s) fd) eq_refl D P K) as (D' & P' & K').
    split.
    + constructor; try rewrite T; auto.
      * refine (base_eq (opened s p ty fd) _ _ _ _ B'); reflexivity.
      * intros i q. cbn [p_fds set_pollfds set_fds p_heap opened say set_next set_heap].
        set (fds := p_fds s ++ repeat None (S (Z.to_nat fd) - length (p_fds s))).
        assert (L : (Z.to_nat fd < length fds)%nat).
        { unfold fds. rewrite app_length, repeat_length. lia. }
        destruct (Nat.eq_dec (Z.to_nat fd) i) as [<-|Ni].
        -- rewrite put_same by exact L. split.
           ++ intros [= <-]. exists (mkObj (p_next s) ty fd).
              split; [left; reflexivity|cbn [o_fd]; lia].
           ++ intros (o & [Ho|Ho] & E); [injection Ho as <- <-; reflexivity|].
              exfalso. apply G3. apply in_map_iff. exists (q, o). split; [cbn [snd]; lia|exact Ho].
        -- rewrite put_other by exact Ni. unfold fds. rewrite nth_pad, (F i q). split.
           ++ intros (o & Ho & E). exists o. split; [right; exact Ho|exact E].
           ++ intros (o & [Ho|Ho] & E); [injection Ho as <- <-; cbn [o_fd] in E; lia|].
              exists o. auto.
    + right. split; [reflexivity|]. exists [EOpen (p_next s) fd]. rewrite T.
      split; [reflexivity|]. split; [discriminate|reflexivity].
  - destruct (lookup (p_heap s) p) as [o|] eqn:L.
    2:{ exists s. split; [reflexivity|]. split; [constructor; assumption|left; reflexivity]. }
    pose proof (lookup_in _ _ _ L) as Hin.
    pose proof (base_close s p o B Hin) as B'.
    destruct (b_live _ B _ _ Hin) as [Ho H0].
    assert (X : nth_error (p_fds s) (Z.to_nat (o_fd o)) = Some (Some p)).
    { apply F. exists o. split; [exact Hin|lia]. }
    assert (LT : (Z.to_nat (o_fd o) < length (p_fds s))%nat).
    { apply nth_error_Some. rewrite X. discriminate. }
    unfold poll_close, deref. rewrite L. cbn [bind].
    replace ((o_fd o <? 0) || (Z.of_nat (length (p_fds s)) <=? o_fd o)) with false by lia.
    cbn [bind]. eexists. split; [reflexivity|].
    set (s' := say _ _).
    assert (T : tr s' = tr s ++ [EClose (o_id o)]) by reflexivity.
    destruct (change_snoc (tr s) (EClose (o_id o)) eq_refl D P K) as (D' & P' & K').
    split.
    + constructor; try rewrite T; auto.
      * refine (base_eq (closed s p o) _ _ _ _ B'); reflexivity.
      * intros i q. cbn [p_fds p_heap s' say set_heap set_pollfds set_fds].
        destruct (Nat.eq_dec (Z.to_nat (o_fd o)) i) as [<-|Ni].
        -- rewrite put_same by exact LT. split; [discriminate|].
           intros (o' & Ho' & E). apply in_release in Ho'. destruct Ho' as [Ho' N]. cbn [fst] in N.
           exfalso. apply N.
           assert (XX : (q, o') = (p, o)).
           { apply (nodup_map_eq (fun x => o_fd (snd x)) (p_heap s)); auto.
             - apply (b_fd _ B).
             - cbn [snd]. lia. }
           congruence.
        -- rewrite put_other by exact Ni. rewrite (F i q). split.
           ++ intros (o' & Ho' & E). exists o'. split; [|exact E].
              apply in_release. split; [exact Ho'|]. cbn [fst]. intros ->.
              assert (XX : (p, o') = (p, o)).
              { apply (nodup_map_eq fst (p_heap s)); auto. apply (b_addr _ B). }
              injection XX as ->. lia.
           ++ intros (o' & Ho' & E). apply in_release in Ho'. exists o'. tauto.
    + right. split; [reflexivity|]. exists [EClose (o_id o)].
      split; [exact T|]. split; [discriminate|reflexivity].
Qed.

Lemma poll_ops : forall l s,
  pinv s -> exists s', exec_ops poll_register poll_close s l = Ok s' /\ pinv s' /\ after s s'.
Proof.
  induction l as [|o l IH]; intros s I; cbn [exec_ops].
  - exists s. split; [reflexivity|]. split; [exact I|left; reflexivity].
  - destruct (poll_op s o I) as (s1 & E1 & I1 & A1). rewrite E1. cbn [bind].
    destruct (IH s1 I1) as (s2 & E2 & I2 & A2). exists s2. split; [exact E2|].
    split; [exact I2|]. exact (after_trans _ _ _ A1 A2).
Qed.

Definition no_ub (r : res pst) : Prop :=
  match r with Ok s => pinv s | UB => False | _ => True end.

(** ** One round *)

(** In the middle of a round: the kernel reported [rep] after [t1], [u]
    happened since, and the loop is at the index [i]. *)
Record mid (t1 : list ev) (rep : list (Z * bool * bool)) (i ret : nat) (s : pst) : Prop := mkMid {
  m_inv : pinv s;
  m_i : (i <= length rep)%nat;
  m_tr : exists u, tr s = t1 ++ EPoll rep :: u /\ existsb is_poll u = false /\
    ((p_pollfds s = [] /\ existsb is_change u = true) \/
     (p_pollfds s = rep /\ existsb is_change u = false /\
      ret = length (filter nonzero (skipn i rep)) /\
      Forall2 (fun d r => is_open t1 (fst (fst d)) (fst (fst r)) /\
                          snd (fst d) = snd (fst r) /\ snd d = snd r)
              (flat_map ready_disp u) (filter nonzero (firstn i rep))))
}.

Lemma open_same : forall t w id fd,
  existsb is_change w = false -> (is_open (t ++ w) id fd <-> is_open t id fd).
Proof.
  intros t w id fd. induction w as [|e w IH] using rev_ind; intros H.
  - rewrite app_nil_r. tauto.
  - rewrite existsb_app in H. apply orb_false_iff in H. destruct H as [H1 H2].
    cbn in H2. rewrite orb_false_r in H2.
    rewrite app_assoc, open_other by exact H2. auto.
Qed.

Lemma change_not_poll : forall w, forallb is_change w = true -> existsb is_poll w = false.
Proof.
  induction w as [|e w IH]; cbn; intros H; [reflexivity|].
  apply andb_true_iff in H. destruct H as [H1 H2]. rewrite IH by exact H2.
  destruct e; cbn in *; try discriminate; reflexivity.
Qed.

Lemma firstn_S_nth : forall {A} (l : list A) i x,
  nth_error l i = Some x -> firstn (S i) l = firstn i l ++ [x].
Proof.
  induction l as [|y l IH]; destruct i; cbn; intros x H; try discriminate.
  - injection H as ->. reflexivity.
  - f_equal. apply IH. exact H.
Qed.

Lemma skipn_nth : forall {A} (l : list A) i x,
  nth_error l i = Some x -> skipn i l = x :: skipn (S i) l.
Proof.
  induction l as [|y l IH]; destruct i; cbn; intros x H; try discriminate.
  - injection H as ->. reflexivity.
  - apply IH. exact H.
Qed.


Lemma handle_mid : forall handler t1 rep i ret s fd input error p,
  mid t1 rep i ret s -> nth_error (p_pollfds s) i = Some (fd, input, error) -> 0 <= fd ->
  nth_error (p_fds s) (Z.to_nat fd) = Some (Some p) ->
  match handle_fd poll_register poll_close handler s p input error with
  | Ok s' => mid t1 rep (S i) (if nonzero (fd, input, error) then Nat.pred ret else ret) s'
  | UB => False
  | _ => True
  end.
Proof.
  intros handler t1 rep i ret s fd input error p M Hn Hfd Hp.
  destruct M as [I Hi (u & T & NP & [(E & C)|(E & C & R & FA)])].
  { rewrite E in Hn. destruct i; discriminate. }
  rewrite E in Hn.
  assert (Hi' : (S i <= length rep)%nat).
  { assert (i < length rep)%nat; [|lia]. apply nth_error_Some. rewrite Hn. discriminate. }
  destruct I as [B F PF D P K].
  destruct (proj1 (F _ _) Hp) as (o & Ho & Efd). rewrite Z2Nat.id in Efd by exact Hfd.
  pose proof (in_lookup _ _ _ (b_addr _ B) Ho) as L.
  destruct (b_live _ B _ _ Ho) as [Op _]. rewrite Efd in Op.
  assert (Op1 : is_open t1 (o_id o) fd).
  { rewrite T in Op. change (EPoll rep :: u) with ([EPoll rep] ++ u) in Op.
    rewrite app_assoc, open_same in Op by exact C.
    rewrite open_other in Op by reflexivity. exact Op. }
  unfold handle_fd, deref. rewrite L. cbn [bind].
  set (s1 := say (EDisp (o_id o) input error) s).
  assert (T1 : tr s1 = t1 ++ EPoll rep :: (u ++ [EDisp (o_id o) input error])).
  { unfold s1. rewrite tr_say, T, <- app_assoc. reflexivity. }
  assert (I1 : pinv s1).
  { constructor.
    - apply base_say; [reflexivity|exact B].
    - exact F.
    - exact PF.
    - unfold s1. rewrite tr_say.
      apply (dispatch_ok_disp _ _ _ _ t1 rep u fd); auto.
      apply nth_error_In in Hn. exact Hn.
    - unfold s1. rewrite tr_say. apply poll_ok_snoc; [reflexivity|exact P].
    - unfold s1. rewrite tr_say. apply complete_snoc; [discriminate|exact K]. }
  assert (M1 : mid t1 rep (S i) (if nonzero (fd, input, error) then Nat.pred ret else ret) s1).
  { constructor; [exact I1|exact Hi'|].
    exists (u ++ [EDisp (o_id o) input error]). split; [exact T1|].
    split; [rewrite existsb_app, NP; reflexivity|]. right.
    split; [exact E|]. split; [rewrite existsb_app, C; reflexivity|].
    rewrite (skipn_nth _ _ _ Hn) in R. cbn [filter] in R.
    rewrite (firstn_S_nth _ _ _ Hn), filter_app, flat_map_app. cbn [filter flat_map ready_disp].
    unfold nonzero in *. rewrite app_nil_r.
    destruct (input || error) eqn:Z0; cbn [length Nat.pred] in R.
    - split; [lia|]. apply Forall2_app; [exact FA|].
      apply Forall2_cons; [|apply Forall2_nil]. split; [exact Op1|]. split; reflexivity.
    - split; [exact R|]. rewrite !app_nil_r. exact FA. }
  assert (A1 : forall l, exists s', exec_ops poll_register poll_close s1 l = Ok s' /\
             mid t1 rep (S i) (if nonzero (fd, input, error) then Nat.pred ret else ret) s').
  { intros l. destruct (poll_ops l s1 I1) as (s' & E' & I' & A'). exists s'. split; [exact E'|].
    destruct A' as [->|(E0 & w & Tw & Nw & Cw)]; [exact M1|].
    constructor; [exact I'|exact Hi'|].
    exists ((u ++ [EDisp (o_id o) input error]) ++ w).
    rewrite Tw, T1. split; [rewrite <- app_assoc; reflexivity|].
    split.
    - rewrite !existsb_app, NP, (change_not_poll _ Cw). reflexivity.
    - left. split; [exact E0|]. rewrite existsb_app. destruct w as [|x w]; [tauto|].
      cbn in Cw. apply andb_true_iff in Cw. cbn. rewrite (proj1 Cw). apply orb_true_r. }
  destruct (A1 (handler s1 p)) as (s' & E' & M').
  destruct (o_type o); cbn [bind]; try exact Logic.I;
    destruct input; rewrite ?E'; cbn [bind]; destruct error; try exact Logic.I;
    (exact M' || exact M1).
Qed.

Lemma loop_ok : forall handler t1 rep fuel i ret s,
  mid t1 rep i ret s -> (fuel + i > length rep)%nat ->
  match poll_loop handler fuel i ret s with
  | Ok s' => exists i' ret', mid t1 rep i' ret' s' /\
               ((length (p_pollfds s') <= i')%nat \/ ret' = O)
  | UB => False
  | _ => True
  end.
Proof.
  intros handler t1 rep. induction fuel as [|fuel IH]; intros i ret s M Hf.
  { pose proof (m_i _ _ _ _ _ M). lia. }
  cbn [poll_loop]. destruct (Nat.ltb i (length (p_pollfds s)) && Nat.ltb 0 ret) eqn:G.
  2:{ exists i, ret. split; [exact M|]. lia. }
  apply andb_true_iff in G. destruct G as [G1 G2]. apply Nat.ltb_lt in G1.
  destruct (nth_error (p_pollfds s) i) as [[[fd input] error]|] eqn:Hn.
  2:{ apply nth_error_None in Hn. lia. }
  pose proof (m_inv _ _ _ _ _ M) as I.
  assert (Hx : In fd (idx 0 (p_fds s))).
  { destruct (pi_poll _ I) as [E|E]; [rewrite E in G1; cbn in G1; lia|].
    rewrite <- E. change fd with (pfd (fd, input, error)). apply in_map.
    apply nth_error_In in Hn. exact Hn. }
  apply idx_in in Hx. destruct Hx as (j & p & Hj & Ej).
  replace (fd <? 0) with false by lia.
  replace (Z.to_nat fd) with j by lia. rewrite Hj.
  assert (Hj' : nth_error (p_fds s) (Z.to_nat fd) = Some (Some p))
    by (replace (Z.to_nat fd) with j by lia; exact Hj).
  pose proof (handle_mid handler t1 rep i ret s fd input error p M Hn ltac:(lia) Hj') as H.
  destruct (handle_fd poll_register poll_close handler s p input error) as [s'| | |]; auto.
  cbn [bind]. apply IH; [exact H|lia].
Qed.

Lemma revents_fd : forall sel f l, map pfd (revents sel f l) = map pfd l.
Proof.
  intros sel f l. unfold revents. rewrite map_map. apply map_ext.
  intros [[fd i] e]. destruct (sel && (fd <? 0)); reflexivity.
Qed.

Lemma handle_ok : forall handler sel a s,
  pinv s -> no_ub (poll_handle handler sel a s).
Proof.
  intros handler sel a s I. unfold poll_handle.
  assert (X : exists s0, (match p_pollfds s with
             | [] => do l <- build s (p_fds s); Ok (set_pollfds l s)
             | _ => Ok s end) = Ok s0 /\ pinv s0 /\ map pfd (p_pollfds s0) = idx 0 (p_fds s0)).
  { pose proof I as I0. destruct I as [B F PF D P K].
    destruct (p_pollfds s) as [|r l] eqn:E.
    - rewrite (build_ok s (p_fds s) 0).
      + cbn [bind]. eexists. split; [reflexivity|].
        assert (Q : map pfd (map (fun z : Z => (z, false, false)) (idx 0 (p_fds s))) = idx 0 (p_fds s)).
        { rewrite map_map. apply map_id. }
        split; [|exact Q]. constructor; auto.
        refine (base_eq s _ _ _ _ B); reflexivity.
      + intros i p Hi. apply F in Hi. destruct Hi as (o & Ho & Eo). exists o.
        split; [exact (in_lookup _ _ _ (b_addr _ B) Ho)|lia].
    - exists s. split; [reflexivity|]. split; [exact I0|].
      rewrite E. destruct PF as [PF|PF]; [discriminate|exact PF]. }
  destruct X as (s0 & E0 & I0 & Q0). rewrite E0. cbn [bind]. clear E0 I s.
  destruct a as [| |f]; [exact I0|exact Logic.I|].
  set (l := revents sel f (p_pollfds s0)).
  assert (Ql : map pfd l = idx 0 (p_fds s0)) by (unfold l; rewrite revents_fd; exact Q0).
  set (s1 := say (EPoll l) (if sel && Nat.eqb (length (filter nonzero l)) 0 then s0 else set_pollfds l s0)).
  assert (T1 : tr s1 = tr s0 ++ [EPoll l]).
  { unfold s1. rewrite tr_say. destruct (sel && _); reflexivity. }
  assert (I1 : pinv s1).
  { destruct I0 as [B F PF D P K].
    assert (B1 : base s1).
    { unfold s1. apply base_say; [reflexivity|].
      destruct (sel && _); [exact B|]. refine (base_eq s0 _ _ _ _ B); reflexivity. }
    constructor.
    - exact B1.
    - unfold s1. destruct (sel && _); exact F.
    - right. unfold s1. destruct (sel && _); [exact Q0|exact Ql].
    - rewrite T1. apply dispatch_ok_snoc; [discriminate|exact D].
    - rewrite T1. change (fun r : Z * bool * bool => fst (fst r)) with pfd.
      apply poll_ok_poll; [exact P| |]; change (fun r : Z * bool * bool => fst (fst r)) with pfd;
        rewrite Ql; [apply idx_nodup|].
      intros fd. rewrite idx_in. split.
      + intros (i & p & Hi & Ei). apply F in Hi. destruct Hi as (o & Ho & Eo).
        exists (o_id o). destruct (b_live _ B _ _ Ho) as [Hop _].
        replace fd with (o_fd o) by lia. exact Hop.
      + intros (id & Hop). destruct (b_all _ B _ _ Hop) as (p & o & Ho & _ & Eo).
        destruct (b_live _ B _ _ Ho) as [_ H0].
        exists (Z.to_nat fd), p. split; [|lia]. apply F. exists o. split; [exact Ho|lia].
    - rewrite T1. apply complete_snoc; [discriminate|exact K]. }
  assert (FIN : forall s', pinv s' ->
            (exists u, tr s' = tr s0 ++ EPoll l :: u /\ existsb is_poll u = false /\
               (existsb is_change u = false ->
                Forall2 (fun d r => is_open (tr s0) (fst (fst d)) (fst (fst r)) /\
                                    snd (fst d) = snd (fst r) /\ snd d = snd r)
                        (flat_map ready_disp u) (filter nonzero l))) ->
            pinv (say EEnd s')).
  { intros s' [B F PF D P K] (u & Tu & Nu & Fu). constructor.
    - apply base_say; [reflexivity|exact B].
    - exact F.
    - exact PF.
    - rewrite tr_say. apply dispatch_ok_snoc; [discriminate|exact D].
    - rewrite tr_say. apply poll_ok_snoc; [reflexivity|exact P].
    - rewrite tr_say. exact (complete_end _ _ _ _ K Tu Nu Fu). }
  destruct (Nat.eqb (length (filter nonzero l)) 0) eqn:Z0.
  - cbn [bind no_ub]. apply Nat.eqb_eq in Z0. apply FIN; [exact I1|].
    exists []. split; [exact T1|]. split; [reflexivity|]. intros _.
    destruct (filter nonzero l); [constructor|discriminate].
  - assert (M1 : mid (tr s0) l 0 (length (filter nonzero l)) s1).
    { constructor; [exact I1|lia|]. exists []. split; [exact T1|]. split; [reflexivity|].
      right. split; [unfold s1; rewrite andb_false_r; reflexivity|].
      split; [reflexivity|]. split; [reflexivity|constructor]. }
    pose proof (loop_ok handler _ _ (S (length l)) 0 _ s1 M1 ltac:(lia)) as H.
    destruct (poll_loop handler (S (length l)) 0 (length (filter nonzero l)) s1) as [s'| | |]; auto.
    cbn [bind no_ub]. destruct H as (i & ret & M & H). apply FIN; [exact (m_inv _ _ _ _ _ M)|].
    destruct M as [I' Hi (u & T & NP & [(E & C)|(E & C & R & FA)])]; exists u;
      (split; [exact T|]); (split; [exact NP|]); intros C'; [congruence|].
    destruct H as [H|H].
    + rewrite E in H. rewrite firstn_all2 in FA by exact H. exact FA.
    + rewrite <- (firstn_skipn i l), filter_app.
      replace (filter nonzero (skipn i l)) with (@nil (Z * bool * bool)).
      * rewrite app_nil_r. exact FA.
      * destruct (filter nonzero (skipn i l)); [reflexivity|cbn in R; lia].
Qed.

Lemma pinv_start : pinv start.
Proof.
  constructor.
  - exact base_start.
  - intros i p. cbn. split; [destruct i; discriminate|]. intros (o & [] & _).
  - left. reflexivity.
  - intros t1 id i e t2 H. destruct t1; discriminate.
  - intros t1 rep t2 H. destruct t1; discriminate.
  - intros t1 rep u t2 H. destruct t1; discriminate.
Qed.

Lemma poll_run_ok : forall handler r, poll_run handler r -> no_ub r.
Proof.
  intros handler r H. induction H as [|s r H IH S].
  - exact pinv_start.
  - cbn [no_ub] in IH. destruct S as [sel a|l].
    + apply handle_ok. exact IH.
    + destruct (poll_ops l s IH) as (s' & E & I' & _). rewrite E. exact I'.
Qed.

Lemma poll_run_spec : forall handler r,
  poll_run handler r ->
  match r with
  | Ok s => distinct (rev (p_trace s)) /\ dispatch_ok (rev (p_trace s)) /\
            poll_ok (rev (p_trace s)) /\ complete (rev (p_trace s))
  | UB => False
  | _ => True
  end.
Proof.
  intros handler r H. apply poll_run_ok in H. destruct r as [s| | |]; auto.
  destruct H as [B F PF D P K]. split; [exact (base_distinct _ B)|]. auto.
Qed.
