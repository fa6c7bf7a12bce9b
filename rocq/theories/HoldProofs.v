(** Accounting of the memory of the configuration *)
From Verif Require Import Base BufferModel HoldModel HoldSpec.
From Coq Require Import Permutation Lia PeanoNat.

Fixpoint cnt (l : list nat) (x : nat) : nat :=
  match l with [] => 0 | p :: r => (if Nat.eq_dec p x then 1 else 0) + cnt r x end.
Definition one (p x : nat) : nat := if Nat.eq_dec p x then 1 else 0.
Lemma cnt_cons p l x : cnt (p :: l) x = (one p x + cnt l x)%nat.
Proof. reflexivity. Qed.
Lemma cnt_nil x : cnt [] x = 0%nat.
Proof. reflexivity. Qed.
Lemma cnt_app a b x : cnt (a ++ b) x = (cnt a x + cnt b x)%nat.
Proof. induction a as [|p a IH]; cbn; [reflexivity | rewrite IH; lia]. Qed.
Lemma cnt_in l x : In x l <-> (cnt l x > 0)%nat.
Proof.
  induction l as [|p l IH]; cbn; [split; [contradiction | lia] |].
  destruct (Nat.eq_dec p x) as [E|E]; [split; [lia | auto] |].
  rewrite IH. split; [intros [E'|H]; [contradiction | lia] | intros H; right; lia].
Qed.
Lemma one_self p : one p p = 1%nat.
Proof. unfold one. destruct (Nat.eq_dec p p); congruence. Qed.
Lemma one_le p x : (one p x <= 1)%nat.
Proof. unfold one. destruct (Nat.eq_dec p x); lia. Qed.
Lemma one_ne p x : p <> x -> one p x = 0%nat.
Proof. unfold one. destruct (Nat.eq_dec p x); congruence. Qed.
Lemma mem_nat_in p l : mem_nat p l = true <-> In p l.
Proof.
  unfold mem_nat. rewrite existsb_exists. split.
  - intros (y & H & E). apply Nat.eqb_eq in E. congruence.
  - intros H. exists p. split; [exact H | apply Nat.eqb_refl].
Qed.

(** What was allocated was given back once or is held once *)
Definition World (m : mem) (O : list nat) : Prop :=
  forall x, (cnt (m_freed m) x + cnt O x = if (x <? m_next m) then 1 else 0)%nat.

Lemma w_eq m O O' : World m O -> (forall x, cnt O x = cnt O' x) -> World m O'.
Proof. intros H E x. rewrite <- E. apply H. Qed.
Lemma w_malloc m O p m' : World m O -> malloc m = (p, m') -> World m' (p :: O).
Proof.
  unfold malloc. intros H E. injection E as <- <-. intros x. cbn [m_freed m_next].
  rewrite cnt_cons. specialize (H x). unfold one.
  destruct (Nat.eq_dec (m_next m) x) as [E|E];
    destruct (Nat.ltb_spec x (m_next m)); destruct (Nat.ltb_spec x (S (m_next m))); lia.
Qed.
Lemma w_strdup g m O p m' : World m O -> strdup g m = (p, m') -> World m' (o_list p ++ O).
Proof.
  unfold strdup. destruct g.
  - destruct (malloc m) as [q m1] eqn:E. intros H E'. injection E' as <- <-. exact (w_malloc _ _ _ _ H E).
  - intros H E'. injection E' as <- <-. exact H.
Qed.
Lemma w_live m O p : World m (p :: O) -> is_live m p = true.
Proof.
  intros H. specialize (H p). rewrite cnt_cons, one_self in H. unfold is_live.
  destruct (Nat.ltb_spec p (m_next m)); [|lia]. cbn.
  destruct (mem_nat p (m_freed m)) eqn:E; [|reflexivity].
  apply mem_nat_in, cnt_in in E. lia.
Qed.
Lemma w_free1 m O p : World m (p :: O) -> exists m', mfree (Some p) m = Ok m' /\ World m' O.
Proof.
  intros H. unfold mfree. rewrite (w_live _ _ _ H). eexists. split; [reflexivity |].
  intros x. cbn [m_freed m_next]. rewrite cnt_app, cnt_cons, cnt_nil. specialize (H x). rewrite cnt_cons in H. lia.
Qed.
Lemma w_free m O p : World m (o_list p ++ O) -> exists m', mfree p m = Ok m' /\ World m' O.
Proof. destruct p as [p|]; [exact (w_free1 m O p) | intros H; exists m; split; [reflexivity | exact H]]. Qed.
Lemma w_use m O p : World m (p :: O) -> use (Some p) m = Ok m.
Proof. intros H. unfold use. rewrite (w_live _ _ _ H). reflexivity. Qed.

Ltac cnts := repeat (progress (rewrite ?cnt_app, ?cnt_cons, ?cnt_nil, ?flat_map_app;
    cbn [flat_map o_list app map fst snd in_file]; unfold in_remote, in_cmd, in_bind, in_stack; cbn [r_host r_addrs c_command c_dir b_self b_dev])).
Ltac weq H := refine (w_eq _ _ _ H _); intros ?x; cnts; lia.

Lemma w_stack_free l : forall m O, World m (in_stack l ++ O) -> exists m', stack_free l m = Ok m' /\ World m' O.
Proof.
  induction l as [|(p, n) r IH]; intros m O H; cbn [stack_free]; [exists m; auto |].
  cbn [in_stack map fst app] in H. rewrite (w_use _ _ _ H). cbn [bind].
  destruct (w_free1 _ _ _ H) as (m1 & -> & H1). cbn. exact (IH _ _ H1).
Qed.
Lemma w_cmd_unset c m O : World m (in_cmd c ++ O) -> exists m', cmd_unset c m = Ok (no_cmd, m') /\ World m' O.
Proof.
  unfold in_cmd, cmd_unset. intros H. rewrite <- app_assoc in H.
  destruct (w_free _ _ _ H) as (m1 & -> & H1). cbn.
  destruct (w_free _ _ _ H1) as (m2 & -> & H2). cbn. exists m2. auto.
Qed.
Lemma w_cmd_set c m O : World m (in_cmd c ++ O) ->
  exists c' m', cmd_set c m = Ok (c', m') /\ World m' (in_cmd c' ++ O).
Proof.
  intros H. unfold cmd_set. destruct (w_cmd_unset _ _ _ H) as (m1 & -> & H1). cbn [bind snd].
  destruct (malloc m1) as [p m2] eqn:E2. pose proof (w_malloc _ _ _ _ H1 E2) as H2.
  destruct (malloc m2) as [q m3] eqn:E3. pose proof (w_malloc _ _ _ _ H2 E3) as H3.
  exists (Cmd (Some p) (Some q)), m3. split; [reflexivity |]. cbn. weq H3.
Qed.
Lemma w_cmds_unset l : forall m O, World m (flat_map in_cmd l ++ O) -> exists m', cmds_unset l m = Ok m' /\ World m' O.
Proof.
  induction l as [|c r IH]; intros m O H; cbn [cmds_unset]; [exists m; auto |].
  cbn [flat_map] in H. rewrite <- app_assoc in H.
  destruct (w_cmd_unset _ _ _ H) as (m1 & -> & H1). cbn. exact (IH _ _ H1).
Qed.
Lemma w_free_list l : forall m O, World m (l ++ O) -> exists m', free_list l m = Ok m' /\ World m' O.
Proof.
  induction l as [|p r IH]; intros m O H; cbn [free_list]; [exists m; auto |].
  destruct (w_free1 _ _ _ H) as (m1 & -> & H1). cbn. exact (IH _ _ H1).
Qed.
Lemma w_free_opts l : forall m O, World m (flat_map o_list l ++ O) -> exists m', free_opts l m = Ok m' /\ World m' O.
Proof.
  induction l as [|p r IH]; intros m O H; cbn [free_opts]; [exists m; auto |].
  cbn [flat_map] in H. rewrite <- app_assoc in H.
  destruct (w_free _ _ _ H) as (m1 & -> & H1). cbn. exact (IH _ _ H1).
Qed.

(** Groups *)
Lemma group_go l : (fix go (l : list group) := match l with [] => [] | c :: r => in_group c ++ go r end) l = flat_map in_group l.
Proof. reflexivity. Qed.
Lemma group_in s n d ms cs ch :
  in_group (Grp s n d ms cs ch) = s :: o_list n ++ in_stack d ++ in_stack ms ++ flat_map in_cmd cs ++ flat_map in_group ch.
Proof. reflexivity. Qed.
Lemma group_self g : exists r, in_group g = g_self g :: r.
Proof. destruct g. eexists. rewrite group_in. reflexivity. Qed.
Fixpoint group_ind' (P : group -> Prop)
  (f : forall s n d ms cs ch, Forall P ch -> P (Grp s n d ms cs ch)) (g : group) : P g :=
  match g with
  | Grp s n d ms cs ch =>
      f s n d ms cs ch
        ((fix go l : Forall P l := match l with [] => Forall_nil P | c :: r => Forall_cons c (group_ind' P f c) (go r) end) ch)
  end.
Lemma w_free_group g : forall m O, World m (in_group g ++ O) -> exists m', free_group g m = Ok m' /\ World m' O.
Proof.
  induction g as [s n d ms cs ch IH] using group_ind'. intros m O H. cbn [free_group].
  rewrite group_in in H.
  set (go := fix go (l : list group) (m : mem) : res mem :=
     match l with [] => Ok m | c :: r => do m <- use (Some (g_self c)) m; do m <- free_group c m; go r m end).
  assert (G : forall m O, World m (flat_map in_group ch ++ O) -> exists m', go ch m = Ok m' /\ World m' O).
  { clear - IH. induction IH as [|c r Hc _ IHr]; intros m O H; [exists m; auto |].
    cbn [flat_map] in H. rewrite <- app_assoc in H.
    change (go (c :: r) m) with (do m <- use (Some (g_self c)) m; do m <- free_group c m; go r m).
    assert (U : use (Some (g_self c)) m = Ok m).
    { destruct (group_self c) as (rest & E). rewrite E in H. exact (w_use _ _ _ H). }
    rewrite U. cbn [bind]. destruct (Hc _ _ H) as (m1 & -> & H1). cbn [bind]. exact (IHr _ _ H1). }
  assert (H0 : World m (flat_map in_group ch ++ (in_stack d ++ in_stack ms ++ flat_map in_cmd cs ++ o_list n ++ s :: O)))
    by weq H.
  destruct (G _ _ H0) as (m1 & -> & H1). cbn [bind].
  destruct (w_stack_free _ _ _ H1) as (m2 & -> & H2). cbn [bind].
  destruct (w_stack_free _ _ _ H2) as (m3 & -> & H3). cbn [bind].
  destruct (w_cmds_unset _ _ _ H3) as (m4 & -> & H4). cbn [bind].
  destruct (w_free _ _ _ H4) as (m5 & -> & H5). cbn [bind].
  exact (w_free1 _ _ _ H5).
Qed.

(** Peers: the addresses of a remote are its own if it has a host name *)
Definition remote_ok (vec : option nat) (r : remote) : Prop :=
  match r_host r, r_addrs r with
  | Some _, AInner _ => False
  | None, AHeap _ => False
  | None, AInner v => vec = Some v
  | _, _ => True
  end.
Definition peer_ok (p : peer) : Prop :=
  Forall (remote_ok (p_vec p)) (p_remotes p) /\ (p_remotes p <> [] -> p_vec p <> None).
Lemma w_free_remotes v l : forall m O, Forall (remote_ok (Some v)) l ->
  World m (v :: flat_map in_remote l ++ O) -> exists m', free_remotes (Some v) l m = Ok m' /\ World m' (v :: O).
Proof.
  induction l as [|r l IH]; intros m O F H; cbn [free_remotes]; [exists m; auto |].
  inversion F as [|? ? F1 F2]; subst. rewrite (w_use _ _ _ H). cbn [bind flat_map] in *.
  destruct r as [[h|] a]; cbn [r_host r_addrs remote_ok in_remote o_list] in *.
  - assert (A : exists m', free_addrs a m = Ok m' /\ World m' (h :: v :: flat_map in_remote l ++ O)).
    { destruct a as [|p|p]; cbn [free_addrs].
      - exists m. split; [reflexivity |]. weq H.
      - apply w_free1. weq H.
      - destruct F1. }
    destruct A as (m1 & -> & H1). cbn [bind].
    destruct (w_free1 _ _ _ H1) as (m2 & E2 & H2). rewrite E2. cbn [bind]. exact (IH _ _ F2 H2).
  - apply IH; [exact F2 |]. destruct a; [exact H | destruct F1 | exact H].
Qed.
Lemma w_peer_free p m O : peer_ok p -> World m (in_peer p ++ O) -> exists m', peer_free p m = Ok m' /\ World m' O.
Proof.
  destruct p as [self name key ifname vec rs g src cfg]. intros (F & NV) H.
  unfold peer_free, in_peer in *. cbn [p_self p_name p_key p_ifname p_vec p_remotes] in *.
  rewrite (w_use _ (tl (((self :: o_list name ++ o_list (option_map fst key) ++ o_list ifname ++ o_list vec ++ flat_map in_remote rs) ++ O))) _ H).
  cbn [bind].
  assert (H0 : World m (o_list (option_map fst key) ++ (o_list vec ++ flat_map in_remote rs ++ o_list ifname ++ o_list name ++ self :: O)))
    by weq H.
  destruct (w_free _ _ _ H0) as (m1 & -> & H1). cbn [bind].
  assert (R : exists m', free_remotes vec rs m1 = Ok m' /\ World m' (o_list vec ++ o_list ifname ++ o_list name ++ self :: O)).
  { destruct vec as [v|].
    - apply (w_free_remotes v rs _ _ F). weq H1.
    - destruct rs as [|r rs]; [exists m1; split; [reflexivity | weq H1] |].
      exfalso. apply NV; congruence. }
  destruct R as (m2 & -> & H2). cbn [bind].
  destruct (w_free _ _ _ H2) as (m3 & -> & H3). cbn [bind].
  destruct (w_free _ _ _ H3) as (m4 & -> & H4). cbn [bind].
  destruct (w_free _ _ _ H4) as (m5 & -> & H5). cbn [bind].
  exact (w_free1 _ _ _ H5).
Qed.

(** Lists *)
Lemma nth_split {A} i (l : list A) x : nth_error l i = Some x -> l = firstn i l ++ x :: skipn (S i) l.
Proof.
  revert l. induction i as [|i IH]; intros [|y l] H; cbn in H; try discriminate.
  - injection H as ->. reflexivity.
  - cbn [firstn skipn app]. f_equal. exact (IH _ H).
Qed.
Lemma cnt_nth {A} (f : A -> list nat) i l x y : nth_error l i = Some x ->
  cnt (flat_map f l) y = (cnt (f x) y + cnt (flat_map f (del i l)) y)%nat.
Proof.
  intros H. rewrite (nth_split _ _ _ H) at 1. unfold del. rewrite !flat_map_app. cbn [flat_map]. rewrite !cnt_app. lia.
Qed.
Lemma cnt_put {A} (f : A -> list nat) i l v y :
  cnt (flat_map f (put i v l)) y = (cnt (f v) y + cnt (flat_map f (del i l)) y)%nat.
Proof. unfold put, del. rewrite !flat_map_app. cbn [flat_map]. rewrite !cnt_app. lia. Qed.
Lemma Forall_del {A} (P : A -> Prop) i l : Forall P l -> Forall P (del i l).
Proof.
  intros H. unfold del. apply Forall_app. rewrite Forall_forall in H. split; apply Forall_forall; intros x Hx; apply H.
  - rewrite <- (firstn_skipn i l). apply in_or_app. left. exact Hx.
  - rewrite <- (firstn_skipn (S i) l). apply in_or_app. right. exact Hx.
Qed.
Lemma Forall_put {A} (P : A -> Prop) i l v : Forall P l -> P v -> Forall P (put i v l).
Proof.
  intros H Hv. apply (Forall_del P i) in H. unfold del, put in *. apply Forall_app in H. destruct H as (H1 & H2).
  apply Forall_app. split; [exact H1 | constructor; assumption].
Qed.
Lemma Forall_nth {A} (P : A -> Prop) i l x : Forall P l -> nth_error l i = Some x -> P x.
Proof. intros F H. rewrite Forall_forall in F. apply F. exact (nth_error_In _ _ H). Qed.
Lemma in_del {A} i (l : list A) x : In x (del i l) -> In x l.
Proof.
  unfold del. intros H. apply in_app_or in H. destruct H as [H|H].
  - rewrite <- (firstn_skipn i l). apply in_or_app. left. exact H.
  - rewrite <- (firstn_skipn (S i) l). apply in_or_app. right. exact H.
Qed.
Lemma in_put {A} i (l : list A) v x : In x (put i v l) -> x = v \/ In x l.
Proof.
  unfold put. intros H. apply in_app_or in H. destruct H as [H|[H|H]].
  - right. rewrite <- (firstn_skipn i l). apply in_or_app. left. exact H.
  - left. congruence.
  - right. rewrite <- (firstn_skipn (S i) l). apply in_or_app. right. exact H.
Qed.
Lemma find_key_nth k l : forall i, find_key k l = Some i -> exists p, nth_error l i = Some p.
Proof.
  induction l as [|p l IH]; cbn; [discriminate |]. intros i. destruct (key_is k p).
  - intros H. injection H as <-. exists p. reflexivity.
  - destruct (find_key k l) as [j|]; cbn; [|discriminate]. intros H. injection H as <-. exact (IH j eq_refl).
Qed.
