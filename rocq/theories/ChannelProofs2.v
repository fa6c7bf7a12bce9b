(** Consequences of the exact description of a session as a channel. *)
From Verif Require Import Base NonceModel NonceSpec BufferModel MethodModel MethodSpec ChannelModel ChannelSpec ChannelProofs.
Local Open Scope Z_scope.

Lemma Forall2_nth {A B} (R : A -> B -> Prop) l l' : Forall2 R l l' ->
  forall i a, nth_error l i = Some a -> exists b, nth_error l' i = Some b /\ R a b.
Proof.
  induction 1 as [|x y l l' H F IH]; intros [|i] a N; cbn [nth_error] in *; try discriminate.
  - injection N as <-. exists y. auto.
  - apply IH, N.
Qed.

Lemma Forall2_nth_r {A B} (R : A -> B -> Prop) l l' : Forall2 R l l' ->
  forall i b, nth_error l' i = Some b -> exists a, nth_error l i = Some a /\ R a b.
Proof.
  induction 1 as [|x y l l' H F IH]; intros [|i] a N; cbn [nth_error] in *; try discriminate.
  - injection N as <-. exists x. auto.
  - apply IH, N.
Qed.

(** ** Facts about the specification *)

Lemma hist_grows ps c o k : In k (map snd (c_hist c)) -> In k (map snd (c_hist (fst (chan_spec_step ps c o)))).
Proof.
  intros H. destruct o as [t|t [j|]|t]; cbn [chan_spec_step].
  - destruct (chan_open c t); exact H.
  - destruct (_ && _); cbn [fst c_hist map]; [now right|exact H].
  - exact H.
  - exact H.
Qed.

Lemma spec_seen_never ps k l : forall c i t p r,
  In (Z.of_nat k) (map snd (c_hist c)) ->
  nth_error l i = Some (PRecv t (Some k)) ->
  nth_error (chan_spec_run ps c l) i = Some (XDelivered p r) -> False.
Proof.
  induction l as [|o l IH]; intros c i t p r Hin N D; [destruct i; discriminate|].
  cbn [chan_spec_run] in D.
  pose proof (hist_grows ps c o _ Hin) as Hin'.
  destruct (chan_spec_step ps c o) as [c' x] eqn:E. cbn [fst] in Hin'.
  destruct i as [|i]; cbn [nth_error] in N, D; [|exact (IH c' i t p r Hin' N D)].
  injection N as ->. injection D as ->. cbn [chan_spec_step] in E.
  destruct (acceptable (c_hist c) t (Z.of_nat k)) eqn:A.
  - exact (acceptable_not_seen _ _ _ A Hin).
  - rewrite andb_false_r in E. discriminate.
Qed.

Lemma spec_once ps k l : forall c i j t t' p p' r r',
  nth_error l i = Some (PRecv t (Some k)) -> nth_error l j = Some (PRecv t' (Some k)) ->
  nth_error (chan_spec_run ps c l) i = Some (XDelivered p r) ->
  nth_error (chan_spec_run ps c l) j = Some (XDelivered p' r') -> i = j.
Proof.
  assert (H0 : forall c t o l x c', chan_spec_step ps c o = (c', x) -> o = PRecv t (Some k) ->
             forall p r, x = XDelivered p r -> forall i t' p' r', nth_error l i = Some (PRecv t' (Some k)) ->
               nth_error (chan_spec_run ps c' l) i = Some (XDelivered p' r') -> False).
  { intros c t o l0 x c' E -> p r -> i t' p' r' N D. cbn [chan_spec_step] in E.
    destruct (chan_open c t && acceptable (c_hist c) t (Z.of_nat k)); [|discriminate].
    injection E as <- _. refine (spec_seen_never ps k l0 _ i t' p' r' _ N D).
    cbn [c_hist map snd]. now left. }
  induction l as [|o l IH]; intros c i j t t' p p' r r' Ni Nj Di Dj; [destruct i; discriminate|].
  cbn [chan_spec_run] in Di, Dj. destruct (chan_spec_step ps c o) as [c' x] eqn:E.
  destruct i as [|i], j as [|j]; cbn [nth_error] in Ni, Nj, Di, Dj.
  - reflexivity.
  - exfalso. injection Ni as Ni. injection Di as Di. exact (H0 _ _ _ l _ _ E Ni _ _ Di _ _ _ _ Nj Dj).
  - exfalso. injection Nj as Nj. injection Dj as Dj. exact (H0 _ _ _ l _ _ E Nj _ _ Dj _ _ _ _ Ni Di).
  - f_equal. exact (IH c' i j t t' p p' r r' Ni Nj Di Dj).
Qed.

Lemma spec_delivers ps l : forall c i p r,
  nth_error (chan_spec_run ps c l) i = Some (XDelivered p r) ->
  exists t k, nth_error l i = Some (PRecv t (Some k)) /\ nth k ps [] = p /\ p <> [].
Proof.
  induction l as [|o l IH]; intros c i p r D; [destruct i; discriminate|].
  cbn [chan_spec_run] in D. destruct (chan_spec_step ps c o) as [c' x] eqn:E.
  destruct i as [|i]; cbn [nth_error] in D |- *; [|exact (IH c' i p r D)].
  injection D as ->. destruct o as [t|t [k|]|t]; cbn [chan_spec_step] in E.
  - destruct (chan_open c t); discriminate.
  - exists t, k. split; [reflexivity|].
    destruct (_ && _); [|discriminate]. destruct (nth k ps []) as [|x q]; [discriminate|].
    injection E as _ <- _. split; [reflexivity|discriminate].
  - discriminate.
  - discriminate.
Qed.

Lemma spec_in_order ps till l : forall c from,
  c_end c = till -> 0 <= c_sent c -> c_sent c + Z.of_nat (length l) < 2 ^ 47 - 2 ^ 31 - 1 ->
  newer (c_hist c) (Z.of_nat from) = true -> in_order till from l ->
  forall i t k, nth_error l i = Some (PRecv t (Some k)) ->
    nth_error (chan_spec_run ps c l) i =
    Some (match nth k ps [] with [] => XDropped | p => XDelivered p false end).
Proof.
  induction l as [|o l IH]; intros c from Ee Hs Hb Hn Ho i t k N; [destruct i; discriminate|].
  cbn [chan_spec_run length] in *. 
  destruct (chan_spec_step ps c o) as [c' x] eqn:E.
  destruct o as [u|u [j|]|u]; cbn [chan_spec_step in_order] in E, Ho.
  - destruct i as [|i]; cbn [nth_error] in N |- *; [discriminate|].
    assert (Q : c_end c' = till /\ 0 <= c_sent c' <= c_sent c + 1 /\ c_hist c' = c_hist c).
    { destruct (chan_open c u); injection E as <- _; cbn [c_end c_sent c_hist]; repeat split; lia || auto. }
    destruct Q as (Q1 & Q2 & Q3).
    apply (IH c' from) with (t := t); auto; [lia|lia|rewrite Q3; exact Hn].
  - destruct Ho as (Ht & Hf & Hk & Ho).
    assert (Nw : newer (c_hist c) (Z.of_nat j) = true).
    { unfold newer in *. rewrite forallb_forall in *. intros a Ha. specialize (Hn a Ha).
      apply Z.ltb_lt in Hn. apply Z.ltb_lt. lia. }
    assert (A : chan_open c u && acceptable (c_hist c) u (Z.of_nat j) = true).
    { unfold chan_open, acceptable. rewrite Nw. cbn [orb]. rewrite !andb_true_iff, !Z.ltb_lt.
      repeat split; try lia. unfold number_ok. rewrite Z.div_small by lia. reflexivity. }
    rewrite A in E. rewrite Nw in E. cbn [negb] in E. injection E as <- <-.
    destruct i as [|i]; cbn [nth_error] in N |- *.
    + injection N as -> ->. reflexivity.
    + apply (IH _ (S j)) with (t := t); cbn [c_end c_sent c_hist]; auto; [lia|].
      unfold newer in *. cbn [forallb snd]. apply andb_true_iff. split; [apply Z.ltb_lt; lia|].
      rewrite forallb_forall in *. intros a Ha. specialize (Nw a Ha). apply Z.ltb_lt in Nw. apply Z.ltb_lt. lia.
  - injection E as <- <-. destruct i as [|i]; cbn [nth_error] in N |- *; [discriminate|].
    apply (IH c from) with (t := t); auto. lia.
  - destruct Ho.
Qed.

Lemma spec_length ps l : forall c, length (chan_spec_run ps c l) = length l.
Proof.
  induction l as [|o l IH]; intros c; [reflexivity|]. cbn [chan_spec_run].
  destruct (chan_spec_step ps c o). cbn [length]. now rewrite IH.
Qed.

(** ** Facts about the model *)

Lemma joint_looks sl eS eR ini compat t0 r0 t1 r1 opsS opsR plans evS evR :
  joint sl eS eR ini compat t0 r0 t1 r1 opsS opsR plans evS evR ->
  Forall2 looks evR (chan_spec_run (map fst (sent opsS evS)) (chan_fresh t1) plans).
Proof.
  intros (K & RS & RR & ES & ER & F).
  destruct (channel_exact sl eS eR ini compat t0 r0 opsS t1 r1 opsR plans K RS RR) as (a & b & E1 & E2 & H).
  rewrite ES in E1. injection E1 as <-. rewrite ER in E2. injection E2 as <-. exact (H F).
Qed.

Lemma looks_delivered ev p r : looks (Delivered p r) ev -> ev = XDelivered p r.
Proof. destruct ev; cbn [looks]; try tauto. now intros [-> ->]. Qed.

Lemma channel_once sl eS eR ini compat t0 r0 t1 r1 opsS opsR plans evS evR :
  joint sl eS eR ini compat t0 r0 t1 r1 opsS opsR plans evS evR ->
  forall k i j t t' p p' r r',
    nth_error plans i = Some (PRecv t (Some k)) -> nth_error plans j = Some (PRecv t' (Some k)) ->
    nth_error evR i = Some (Delivered p r) -> nth_error evR j = Some (Delivered p' r') -> i = j.
Proof.
  intros J k i j t t' p p' r r' Ni Nj Di Dj. pose proof (joint_looks _ _ _ _ _ _ _ _ _ _ _ _ _ _ J) as L.
  destruct (Forall2_nth _ _ _ L i _ Di) as (x & Xi & Lx). apply looks_delivered in Lx. subst x.
  destruct (Forall2_nth _ _ _ L j _ Dj) as (y & Xj & Ly). apply looks_delivered in Ly. subst y.
  exact (spec_once _ k plans _ i j t t' p p' r r' Ni Nj Xi Xj).
Qed.

Lemma channel_only_sent sl eS eR ini compat t0 r0 t1 r1 opsS opsR plans evS evR :
  joint sl eS eR ini compat t0 r0 t1 r1 opsS opsR plans evS evR ->
  forall i p r, nth_error evR i = Some (Delivered p r) ->
    exists t b g k, nth_error opsR i = Some (ORecv t b g) /\ nth_error plans i = Some (PRecv t (Some k)) /\
      nth_error (sent opsS evS) k = Some (p, b_data b).
Proof.
  intros J i p r Di. pose proof (joint_looks _ _ _ _ _ _ _ _ _ _ _ _ _ _ J) as L.
  destruct J as (_ & _ & _ & _ & _ & F).
  destruct (Forall2_nth _ _ _ L i _ Di) as (x & Xi & Lx). apply looks_delivered in Lx. subst x.
  destruct (spec_delivers _ _ _ _ _ _ Xi) as (t & k & Np & Ep & Hp).
  destruct (Forall2_nth_r _ _ _ F i _ Np) as (o & No & Ca).
  destruct o as [u b g|u b g|u]; cbn [carries] in Ca; try (destruct Ca; fail).
  destruct Ca as [-> (q & Nq)]. exists t, b, g, k. split; [exact No|]. split; [exact Np|].
  rewrite Nq. do 2 f_equal. rewrite <- Ep. symmetry. apply nth_error_nth. rewrite nth_error_map, Nq. reflexivity.
Qed.

Lemma channel_in_order sl eS eR ini compat t0 r0 t1 r1 opsS opsR plans evS evR :
  joint sl eS eR ini compat t0 r0 t1 r1 opsS opsR plans evS evR ->
  in_order (t1 + 3600000) 0 plans -> Z.of_nat (length plans) < 2 ^ 47 - 2 ^ 31 - 1 ->
  forall i t k p pkt, nth_error plans i = Some (PRecv t (Some k)) ->
    nth_error (sent opsS evS) k = Some (p, pkt) -> p <> [] ->
    nth_error evR i = Some (Delivered p false).
Proof.
  intros J Ho Hl i t k p pkt Np Nk Hp. pose proof (joint_looks _ _ _ _ _ _ _ _ _ _ _ _ _ _ J) as L.
  pose proof (spec_in_order (map fst (sent opsS evS)) (t1 + 3600000) plans (chan_fresh t1) 0%nat) as H.
  cbn [chan_fresh c_end c_sent c_hist] in H.
  specialize (H eq_refl (Z.le_refl 0) Hl eq_refl Ho i t k Np).
  assert (Nt : nth k (map fst (sent opsS evS)) [] = p).
  { apply nth_error_nth. rewrite nth_error_map, Nk. reflexivity. }
  change {| c_end := t1 + 3600000; c_sent := 0; c_hist := [] |} with (chan_fresh t1) in H.
  rewrite Nt in H. destruct p as [|x q]; [congruence|].
  destruct (Forall2_nth_r _ _ _ L i _ H) as (ev & Ne & Le).
  destruct ev; cbn [looks] in Le; try (destruct Le; fail). destruct Le as [-> ->]. exact Ne.
Qed.
