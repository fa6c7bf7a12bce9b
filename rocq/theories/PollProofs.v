(** Proofs about the polling loop: the objects and the trace. *)

From Coq Require Import ZArith List Bool Lia.
From Verif Require Import BufferModel PollModel PollSpec.
Import ListNotations.
Local Open Scope Z_scope.

(** ** Lists *)

Lemma snoc_split : forall {A} (t : list A) x t1 e t2,
  t ++ [x] = t1 ++ e :: t2 ->
  (t2 = [] /\ x = e /\ t = t1) \/ (exists t2', t2 = t2' ++ [x] /\ t = t1 ++ e :: t2').
Proof.
  intros A t x t1 e t2 H. destruct t2 as [|y t2] using rev_ind.
  - apply app_inj_tail in H. destruct H as [H1 H2]. left. auto.
  - clear IHt2. right. exists t2.
    replace (t1 ++ e :: t2 ++ [y]) with ((t1 ++ e :: t2) ++ [y]) in H
      by (rewrite <- app_assoc; reflexivity).
    apply app_inj_tail in H. destruct H as [H1 H2]. subst. auto.
Qed.

Definition tr (s : pst) : list ev := rev (p_trace s).

Lemma tr_say : forall e s, tr (say e s) = tr s ++ [e].
Proof. reflexivity. Qed.

(** ** What holds of objects and trace in every variant *)

Record base (s : pst) : Prop := mkBase {
  b_addr : NoDup (map fst (p_heap s));
  b_fd : NoDup (map (fun x => o_fd (snd x)) (p_heap s));
  b_live : forall p o, In (p, o) (p_heap s) -> is_open (tr s) (o_id o) (o_fd o) /\ 0 <= o_fd o;
  b_all : forall id fd, is_open (tr s) id fd ->
            exists p o, In (p, o) (p_heap s) /\ o_id o = id /\ o_fd o = fd;
  b_ids : forall p o p' o', In (p, o) (p_heap s) -> In (p', o') (p_heap s) ->
            o_id o = o_id o' -> p = p';
  b_old : forall id fd, In (EOpen id fd) (tr s) -> (id < p_next s)%nat;
  b_old' : forall id, In (EClose id) (tr s) -> (id < p_next s)%nat;
  b_one : forall id fd fd', In (EOpen id fd) (tr s) -> In (EOpen id fd') (tr s) -> fd = fd';
}.

Lemma lookup_in : forall h p o, lookup h p = Some o -> In (p, o) h.
Proof.
  induction h as [|[q o'] h IH]; cbn; intros p o H; [discriminate|].
  destruct (Nat.eqb q p) eqn:E.
  - apply Nat.eqb_eq in E. injection H as ->. subst. left. reflexivity.
  - right. apply IH. exact H.
Qed.

Lemma in_lookup : forall h p o, NoDup (map fst h) -> In (p, o) h -> lookup h p = Some o.
Proof.
  induction h as [|[q o'] h IH]; cbn; intros p o N H; [destruct H|].
  inversion N as [|? ? N1 N2]; subst. destruct H as [H|H].
  - injection H as -> ->. rewrite Nat.eqb_refl. reflexivity.
  - destruct (Nat.eqb q p) eqn:E.
    + apply Nat.eqb_eq in E. subst q. exfalso. apply N1.
      change p with (fst (p, o)). apply in_map. exact H.
    + apply IH; assumption.
Qed.

Lemma lookup_none : forall h p, lookup h p = None -> ~ In p (map fst h).
Proof.
  induction h as [|[q o'] h IH]; cbn; intros p H; [tauto|].
  destruct (Nat.eqb q p) eqn:E; [discriminate|].
  apply Nat.eqb_neq in E. intros [C|C]; [congruence|]. exact (IH _ H C).
Qed.

Lemma in_release : forall h p x, In x (release h p) <-> In x h /\ fst x <> p.
Proof.
  intros h p x. unfold release. rewrite filter_In.
  rewrite negb_true_iff, Nat.eqb_neq. tauto.
Qed.

Lemma nodup_filter_map : forall {A B} (f : A -> B) (g : A -> bool) l,
  NoDup (map f l) -> NoDup (map f (filter g l)).
Proof.
  induction l as [|x l IH]; cbn; intros N; [exact N|].
  inversion N as [|? ? N1 N2]; subst.
  destruct (g x); [|auto]. cbn. constructor; [|auto].
  intros C. apply N1. apply in_map_iff in C. destruct C as (y & E & Hy).
  apply filter_In in Hy. rewrite <- E. apply in_map. tauto.
Qed.

Lemma nodup_map_eq : forall {A B} (f : A -> B) l x y,
  NoDup (map f l) -> In x l -> In y l -> f x = f y -> x = y.
Proof.
  induction l as [|z l IH]; cbn; intros x y N Hx Hy E; [destruct Hx|].
  inversion N as [|? ? N1 N2]; subst.
  destruct Hx as [Hx|Hx], Hy as [Hy|Hy]; subst; auto.
  - exfalso. apply N1. rewrite E. apply in_map. exact Hy.
  - exfalso. apply N1. rewrite <- E. apply in_map. exact Hx.
Qed.

(** Opening an object *)
Definition opened (s : pst) (p : nat) (ty : ptype) (fd : Z) : pst :=
  say (EOpen (p_next s) fd)
    (set_next (S (p_next s)) (set_heap ((p, mkObj (p_next s) ty fd) :: p_heap s) s)).

Lemma base_open : forall s p ty fd,
  base s -> 0 <= fd -> ~ In p (map fst (p_heap s)) ->
  ~ In fd (map (fun x => o_fd (snd x)) (p_heap s)) ->
  base (opened s p ty fd).
Proof.
  intros s p ty fd B Hfd Hp Hf. destruct B as [A1 A2 A3 A4 A5 A6 A7 A8].
  assert (N : ~ In (EClose (p_next s)) (tr s)) by (intros C; apply A7 in C; lia).
  assert (O : forall id f, is_open (tr s ++ [EOpen (p_next s) fd]) id f <->
                is_open (tr s) id f \/ (id = p_next s /\ f = fd)).
  { intros id f. unfold is_open. rewrite !in_app_iff. cbn. split.
    - intros [[H|[H|[]]] H']; [left; tauto|]. injection H as <- <-. right. auto.
    - intros [[H H']|[-> ->]].
      + split; [auto|]. intros [C|[C|[]]]; [tauto|discriminate].
      + split; [auto|]. intros [C|[C|[]]]; [tauto|discriminate]. }
  constructor.
  - cbn. constructor; assumption.
  - cbn. constructor; assumption.
  - unfold opened. rewrite tr_say. intros q o [H|H].
    + injection H as <- <-. cbn [o_id o_fd]. split; [|exact Hfd]. apply O. auto.
    + change (tr (set_next _ _)) with (tr s). destruct (A3 _ _ H) as [H1 H2].
      split; [|exact H2]. apply O. auto.
  - unfold opened. rewrite tr_say. change (tr (set_next _ _)) with (tr s).
    intros id f H. apply O in H. destruct H as [H|[-> ->]].
    + destruct (A4 _ _ H) as (q & o & H1 & H2). exists q, o. split; [right; exact H1|exact H2].
    + exists p, (mkObj (p_next s) ty fd). split; [left; reflexivity|auto].
  - assert (L : forall q o, In (q, o) (p_heap s) -> o_id o <> p_next s).
    { intros q o H C. destruct (A3 _ _ H) as [[H1 _] _]. apply A6 in H1. lia. }
    intros q o q' o' [H|H] [H'|H'] E.
    + congruence.
    + injection H as <- <-. cbn in E. destruct (L _ _ H'). auto.
    + injection H' as <- <-. cbn in E. destruct (L _ _ H). auto.
    + exact (A5 _ _ _ _ H H' E).
  - unfold opened. rewrite tr_say. change (tr (set_next _ _)) with (tr s).
    intros id f H. apply in_app_iff in H. cbn in *. destruct H as [H|[H|[]]].
    + apply A6 in H. lia.
    + injection H as <- _. lia.
  - unfold opened. rewrite tr_say. change (tr (set_next _ _)) with (tr s).
    intros id H. apply in_app_iff in H. cbn in *. destruct H as [H|[H|[]]].
    + apply A7 in H. lia.
    + discriminate.
  - unfold opened. rewrite tr_say. change (tr (set_next _ _)) with (tr s).
    intros id f f' H H'. apply in_app_iff in H. apply in_app_iff in H'. cbn in H, H'.
    destruct H as [H|[H|[]]], H' as [H'|[H'|[]]].
    + exact (A8 _ _ _ H H').
    + injection H' as <- <-. apply A6 in H. lia.
    + injection H as <- <-. apply A6 in H'. lia.
    + congruence.
Qed.

(** Closing an object *)
Definition closed (s : pst) (p : nat) (o : obj) : pst :=
  say (EClose (o_id o)) (set_heap (release (p_heap s) p) s).

Lemma base_close : forall s p o,
  base s -> In (p, o) (p_heap s) -> base (closed s p o).
Proof.
  intros s p o B Hp. destruct B as [A1 A2 A3 A4 A5 A6 A7 A8].
  assert (O : forall id f, is_open (tr s ++ [EClose (o_id o)]) id f <->
                is_open (tr s) id f /\ id <> o_id o).
  { intros id f. unfold is_open. rewrite !in_app_iff. cbn. split.
    - intros [[H|[H|[]]] H']; [|discriminate].
      split; [tauto|]. intros ->. apply H'. auto.
    - intros [[H H'] N]. split; [auto|].
      intros [C|[C|[]]]; [tauto|]. injection C as C. congruence. }
  constructor.
  - cbn. apply nodup_filter_map. exact A1.
  - cbn. apply nodup_filter_map. exact A2.
  - unfold closed. rewrite tr_say. change (tr (set_heap _ _)) with (tr s).
    intros q o' H. cbn in H. apply in_release in H. destruct H as [H N]. cbn in N.
    destruct (A3 _ _ H) as [H1 H2]. split; [|exact H2]. apply O. split; [exact H1|].
    intros E. apply N. exact (A5 _ _ _ _ H Hp E).
  - unfold closed. rewrite tr_say. change (tr (set_heap _ _)) with (tr s).
    intros id f H. apply O in H. destruct H as [H N].
    destruct (A4 _ _ H) as (q & o' & H1 & H2 & H3). exists q, o'. split; [|auto].
    cbn. apply in_release. split; [exact H1|]. cbn. intros ->.
    assert (E : o' = o).
    { assert (X : (p, o') = (p, o)) by exact (nodup_map_eq fst _ _ _ A1 H1 Hp eq_refl). congruence. }
    congruence.
  - intros q o1 q' o2 H H' E. cbn in H, H'. apply in_release in H. apply in_release in H'.
    exact (A5 _ _ _ _ (proj1 H) (proj1 H') E).
  - unfold closed. rewrite tr_say. change (tr (set_heap _ _)) with (tr s).
    intros id f H. apply in_app_iff in H. cbn in *. destruct H as [H|[H|[]]]; [|discriminate].
    exact (A6 _ _ H).
  - unfold closed. rewrite tr_say. change (tr (set_heap _ _)) with (tr s).
    intros id H. apply in_app_iff in H. cbn in *. destruct H as [H|[H|[]]].
    + exact (A7 _ H).
    + injection H as <-. destruct (A3 _ _ Hp) as [[H _] _]. exact (A6 _ _ H).
  - unfold closed. rewrite tr_say. change (tr (set_heap _ _)) with (tr s).
    intros id f f' H H'. apply in_app_iff in H. apply in_app_iff in H'. cbn in H, H'.
    destruct H as [H|[H|[]]], H' as [H'|[H'|[]]]; try discriminate.
    exact (A8 _ _ _ H H').
Qed.

(** Other events *)
Lemma open_other : forall e t id fd,
  is_change e = false -> (is_open (t ++ [e]) id fd <-> is_open t id fd).
Proof.
  intros e t id fd H. unfold is_open. rewrite !in_app_iff. cbn. split.
  - intros [[H1|[H1|[]]] H2]; [tauto|]. subst e. discriminate.
  - intros [H1 H2]. split; [auto|]. intros [C|[C|[]]]; [tauto|]. subst e. discriminate.
Qed.

Lemma base_say : forall e s, is_change e = false -> base s -> base (say e s).
Proof.
  intros e s He [A1 A2 A3 A4 A5 A6 A7 A8]. constructor; try assumption.
  - intros p o H. rewrite tr_say, open_other by exact He. exact (A3 _ _ H).
  - intros id fd H. rewrite tr_say, open_other in H by exact He. exact (A4 _ _ H).
  - intros id fd H. rewrite tr_say, in_app_iff in H. destruct H as [H|[H|[]]].
    + exact (A6 _ _ H).
    + subst e. discriminate.
  - intros id H. rewrite tr_say, in_app_iff in H. destruct H as [H|[H|[]]].
    + exact (A7 _ H).
    + subst e. discriminate.
  - intros id fd fd' H H'. rewrite tr_say, in_app_iff in H. rewrite tr_say, in_app_iff in H'.
    destruct H as [H|[H|[]]], H' as [H'|[H'|[]]]; try (subst e; discriminate).
    exact (A8 _ _ _ H H').
Qed.

Lemma base_eq : forall s s',
  p_heap s' = p_heap s -> p_next s' = p_next s -> p_trace s' = p_trace s -> base s -> base s'.
Proof.
  intros s s' E1 E2 E3 [A1 A2 A3 A4 A5 A6 A7 A8].
  assert (T : tr s' = tr s) by (unfold tr; congruence).
  constructor; rewrite ?E1, ?E2, ?T; assumption.
Qed.

Lemma base_start : base start.
Proof.
  constructor; cbn; try (intros; tauto); try apply NoDup_nil.
  intros id fd [H _]. destruct H.
Qed.

(** The guard of [exec_op] *)
Lemma open_guard : forall (h : heap) p fd,
  existsb (fun x => Nat.eqb (fst x) p || (o_fd (snd x) =? fd)) h = false ->
  ~ In p (map fst h) /\ ~ In fd (map (fun x => o_fd (snd x)) h).
Proof.
  intros h p fd H.
  assert (G : forall x, In x h -> fst x <> p /\ o_fd (snd x) <> fd).
  { intros x Hx. rewrite <- not_true_iff_false in H. rewrite existsb_exists in H.
    split; intros C; apply H; exists x; (split; [exact Hx|]); apply orb_true_iff.
    - left. apply Nat.eqb_eq. exact C.
    - right. apply Z.eqb_eq. exact C. }
  split; intros C; apply in_map_iff in C; destruct C as (x & E & Hx); destruct (G _ Hx); congruence.
Qed.

(** ** The three statements about the trace, when an event is added *)

Lemma dispatch_ok_snoc : forall t e,
  (forall id i er, e <> EDisp id i er) -> dispatch_ok t -> dispatch_ok (t ++ [e]).
Proof.
  intros t e He D t1 id i er t2 H. apply snoc_split in H.
  destruct H as [(-> & H & ->)|(t2' & -> & H)]; [destruct (He _ _ _ H)|].
  exact (D _ _ _ _ _ H).
Qed.

Lemma dispatch_ok_disp : forall t id i er u1 rep u2 fd,
  dispatch_ok t -> t = u1 ++ EPoll rep :: u2 -> existsb is_poll u2 = false ->
  is_open u1 id fd -> is_open t id fd -> In (fd, i, er) rep ->
  dispatch_ok (t ++ [EDisp id i er]).
Proof.
  intros t id i er u1 rep u2 fd D E N O1 O2 R t1 id' i' er' t2 H. apply snoc_split in H.
  destruct H as [(-> & H & H')|(t2' & -> & H)].
  - injection H as <- <- <-. subst t1. exists u1, rep, u2, fd. auto.
  - exact (D _ _ _ _ _ H).
Qed.

Lemma poll_ok_snoc : forall t e, is_poll e = false -> poll_ok t -> poll_ok (t ++ [e]).
Proof.
  intros t e He D t1 rep t2 H. apply snoc_split in H.
  destruct H as [(-> & H & ->)|(t2' & -> & H)]; [subst e; discriminate|].
  exact (D _ _ _ H).
Qed.

Lemma poll_ok_poll : forall t rep,
  poll_ok t -> NoDup (map (fun r => fst (fst r)) rep) ->
  (forall fd, In fd (map (fun r => fst (fst r)) rep) <-> exists id, is_open t id fd) ->
  poll_ok (t ++ [EPoll rep]).
Proof.
  intros t rep D N I t1 rep' t2 H. apply snoc_split in H.
  destruct H as [(-> & H & H')|(t2' & -> & H)].
  - injection H as <-. subst t1. auto.
  - exact (D _ _ _ H).
Qed.

Lemma complete_snoc : forall t e, e <> EEnd -> complete t -> complete (t ++ [e]).
Proof.
  intros t e He D t1 rep u t2 H.
  replace (t1 ++ EPoll rep :: u ++ EEnd :: t2) with ((t1 ++ EPoll rep :: u) ++ EEnd :: t2) in H
    by (rewrite <- app_assoc; reflexivity).
  apply snoc_split in H.
  destruct H as [(-> & H & H')|(t2' & -> & H)]; [congruence|].
  rewrite <- app_assoc in H. exact (D _ _ _ _ H).
Qed.

Lemma last_poll : forall t1 rep u t1' rep' u',
  t1 ++ EPoll rep :: u = t1' ++ EPoll rep' :: u' ->
  existsb is_poll u = false -> existsb is_poll u' = false ->
  t1 = t1' /\ rep = rep' /\ u = u'.
Proof.
  induction t1 as [|x t1 IH]; intros rep u t1' rep' u' E N N'; destruct t1' as [|y t1']; cbn in E.
  - injection E as -> ->. auto.
  - injection E as <- E. subst u. rewrite existsb_app in N. cbn in N.
    rewrite orb_true_r in N. discriminate.
  - injection E as -> E. subst u'. rewrite existsb_app in N'. cbn in N'.
    rewrite orb_true_r in N'. discriminate.
  - injection E as -> E. destruct (IH _ _ _ _ _ E N N') as (-> & -> & ->). auto.
Qed.

Lemma complete_end : forall t t1 rep u,
  complete t -> t = t1 ++ EPoll rep :: u -> existsb is_poll u = false ->
  (existsb is_change u = false ->
   Forall2 (fun d r => is_open t1 (fst (fst d)) (fst (fst r)) /\
                       snd (fst d) = snd (fst r) /\ snd d = snd r)
            (flat_map ready_disp u) (filter nonzero rep)) ->
  complete (t ++ [EEnd]).
Proof.
  intros t t1 rep u D E N F t1' rep' u' t2 H N' C'.
  replace (t1' ++ EPoll rep' :: u' ++ EEnd :: t2)
    with ((t1' ++ EPoll rep' :: u') ++ EEnd :: t2) in H
    by (rewrite <- app_assoc; reflexivity).
  apply snoc_split in H. destruct H as [(-> & _ & H)|(t2' & -> & H)].
  - rewrite H in E. destruct (last_poll _ _ _ _ _ _ E N' N) as (-> & -> & ->). auto.
  - rewrite <- app_assoc in H. exact (D _ _ _ _ H N' C').
Qed.

Lemma base_distinct : forall s, base s -> distinct (tr s).
Proof.
  intros s B. split; [exact (b_one _ B)|].
  intros id id' fd H H'. destruct (b_all _ B _ _ H) as (p & o & H1 & <- & <-).
  destruct (b_all _ B _ _ H') as (p' & o' & H1' & <- & E).
  assert (X : (p, o) = (p', o')).
  { apply (nodup_map_eq (fun x => o_fd (snd x)) (p_heap s)); auto. apply (b_fd _ B). }
  congruence.
Qed.
