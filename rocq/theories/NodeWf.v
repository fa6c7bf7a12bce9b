(** Well-formed nodes: ids are sorted and unique, keys and addresses are unique *)
From Verif Require Import Base BufferModel NonceModel MethodModel HandshakeModel NodeModel NodeSteps.
From Coq Require Import Lia ZifyBool ZifyNat ZifyN Sorted.
Local Open Scope Z_scope.

Definition ids (l : list peer) : list N := map p_id l.
Definition ids_ok (n : node) : Prop :=
  StronglySorted N.lt (ids (n_peers n)) /\ Forall (fun i => i < n_next_id n)%N (ids (n_peers n)).
Definition uniq_addr (n : node) : Prop :=
  forall p q a, In p (n_peers n) -> In q (n_peers n) -> p_addr p = Some a -> p_addr q = Some a -> p_id p = p_id q.
Definition uniq_key (n : node) : Prop := NoDup (map p_key (n_peers n)).
Record wf (n : node) : Prop := mk_wf { wf_ids : ids_ok n; wf_addr : uniq_addr n; wf_key : uniq_key n }.

Lemma sorted_nodup : forall l, StronglySorted N.lt l -> NoDup l.
Proof.
  induction l as [|x l IH]; intros H; [constructor|]. apply StronglySorted_inv in H. destruct H as [H1 H2].
  constructor; [|exact (IH H1)]. intros Hin. rewrite Forall_forall in H2. specialize (H2 x Hin). lia.
Qed.

Lemma ids_inj : forall n p q, ids_ok n -> In p (n_peers n) -> In q (n_peers n) -> p_id p = p_id q -> p = q.
Proof.
  intros n p q [Hs _] Hp Hq E. apply sorted_nodup in Hs. unfold ids in Hs. revert Hs Hp Hq.
  induction (n_peers n) as [|x l IH]; intros Hs Hp Hq; [destruct Hp|].
  inversion Hs as [|y l' Hn Hs' E1]; subst.
  destruct Hp as [->|Hp], Hq as [->|Hq].
  - reflexivity.
  - exfalso. apply Hn. rewrite E. apply in_map. exact Hq.
  - exfalso. apply Hn. rewrite <- E. apply in_map. exact Hp.
  - exact (IH Hs' Hp Hq).
Qed.

Lemma in_find : forall n p, ids_ok n -> In p (n_peers n) -> find_id (n_peers n) (p_id p) = Some p.
Proof.
  intros n p Hi Hp. destruct (find_id (n_peers n) (p_id p)) as [q|] eqn:E.
  - apply find_id_in in E. destruct E as [E1 E2]. f_equal. exact (ids_inj n q p Hi E1 Hp E2).
  - unfold find_id in E. apply find_none with (x := p) in E; [|exact Hp]. rewrite N.eqb_refl in E. discriminate.
Qed.

(** The peers after an update *)
Lemma in_upd : forall l pid f q, In q (upd_id l pid f) ->
  (In q l /\ p_id q <> pid) \/ exists p, In p l /\ p_id p = pid /\ q = f p.
Proof.
  intros l pid f q H. unfold upd_id in H. apply in_map_iff in H. destruct H as (p & E & Hp).
  destruct (N.eqb_spec (p_id p) pid) as [Ei|Ei].
  - right. exists p. split; [exact Hp|]. split; [exact Ei | symmetry; exact E].
  - left. subst q. split; assumption.
Qed.
Lemma in_upd_found : forall n pid f q p, ids_ok n -> find_id (n_peers n) pid = Some p -> In q (upd_id (n_peers n) pid f) ->
  (In q (n_peers n) /\ p_id q <> pid) \/ q = f p.
Proof.
  intros n pid f q p Hi Hf H. apply in_upd in H. destruct H as [H | (p' & Hp & Ei & ->)]; [left; exact H|]. right.
  apply find_id_in in Hf. destruct Hf as [Hp2 Ei2]. f_equal. apply (ids_inj n); congruence.
Qed.

(** an update of one peer as replacing it in the list *)
Lemma upd_split : forall n pid f p, ids_ok n -> find_id (n_peers n) pid = Some p ->
  exists l1 l2, n_peers n = l1 ++ p :: l2 /\ upd_id (n_peers n) pid f = l1 ++ f p :: l2.
Proof.
  intros n pid f p [Hs _] Hf. apply find_id_in in Hf. destruct Hf as [Hin Ei].
  apply in_split in Hin. destruct Hin as (l1 & l2 & E). exists l1, l2. split; [exact E|].
  rewrite E in *. apply sorted_nodup in Hs. unfold ids in Hs. rewrite map_app in Hs. cbn [map] in Hs.
  apply NoDup_remove in Hs. destruct Hs as [_ Hn]. unfold upd_id. rewrite map_app. cbn [map].
  rewrite Ei, N.eqb_refl. f_equal; [|f_equal].
  - rewrite <- (map_id l1) at 2. apply map_ext_in. intros q Hq. destruct (N.eqb_spec (p_id q) pid) as [E2|E2]; [|reflexivity].
    exfalso. apply Hn. rewrite Ei, <- E2. apply in_or_app. left. apply in_map. exact Hq.
  - rewrite <- (map_id l2) at 2. apply map_ext_in. intros q Hq. destruct (N.eqb_spec (p_id q) pid) as [E2|E2]; [|reflexivity].
    exfalso. apply Hn. rewrite Ei, <- E2. apply in_or_app. right. apply in_map. exact Hq.
Qed.

(** ** Fields a step of a peer leaves alone *)
(** [superseded] changes the old session only *)
Lemma superseded_is : forall now method p, exists o, superseded now method p = set_p_old o p.
Proof.
  intros now method p. unfold superseded. destruct (_ && _)%bool; cbn [p_old set_p_old].
  - destruct (p_sess p) as [s|]; [destruct (bytes_eqb _ _)|]; eexists; destruct p; reflexivity.
  - destruct (p_old p) as [s|] eqn:E; [destruct (bytes_eqb _ _)|]; try (eexists; reflexivity). exists (p_old p). destruct p; reflexivity.
Qed.
Ltac unsup := repeat match goal with
  | |- context [superseded ?a ?b ?q] => let t := fresh "so" in destruct (superseded_is a b q) as [t ->]
  | H : context [superseded ?a ?b ?q] |- _ => let t := fresh "so" in let E := fresh in destruct (superseded_is a b q) as [t E]; rewrite E in *; clear E
  end.
Lemma pstep_const : forall P fl n p p', pstep P fl n p p' ->
  p_id p' = p_id p /\ p_key p' = p_key p /\ p_group p' = p_group p /\ p_dir p' = p_dir p /\ p_floating p' = p_floating p /\
  p_ifname p' = p_ifname p /\ p_mtu p' = p_mtu p /\ map pstatic (p_remotes p') = map pstatic (p_remotes p).
Proof.
  intros P fl n p p' H. destruct H; unsched; cbn; try (repeat split; assumption); try (repeat split; reflexivity).
Qed.
Lemma reset_fn_const : forall P p, let p' := reset_fn P p in
  p_id p' = p_id p /\ p_key p' = p_key p /\ p_group p' = p_group p /\ p_dir p' = p_dir p /\ p_floating p' = p_floating p /\
  p_ifname p' = p_ifname p /\ p_mtu p' = p_mtu p /\ p_remotes p' = p_remotes p /\ p_conf p' = p_conf p.
Proof. intros P p p'. subst p'. unfold reset_fn. cbv zeta. destruct (_ || _ || _)%bool; cbn; repeat split. Qed.
(** only the configuration state changes *)
Lemma pre_reload_const : forall p, exists c, pre_reload p = set_p_conf c p /\ (p_conf p = CDynamic <-> c = CDynamic).
Proof.
  intros p. unfold pre_reload, is_dynamic. destruct (p_conf p) eqn:E; destruct (p_dir p); cbn [negb];
  first [ exists CDynamic; split; [destruct p; cbn in E; subst; reflexivity | tauto]
        | exists CStatic; split; [destruct p; cbn in E; subst; reflexivity | split; discriminate]
        | exists CNew; split; [destruct p; cbn in E; subst; reflexivity | split; discriminate] ].
Qed.

Lemma pstep_addr : forall P fl n p p', pstep P fl n p p' ->
  p_addr p' = p_addr p \/ (p_addr p' = None /\ is_established p = false) \/
  exists a, f_cl fl = true /\ p_addr p' = Some a /\ forall q, In q (n_peers n) -> p_id q <> p_id p -> p_addr q <> Some a.
Proof.
  intros P fl n p p' H. destruct H; unsched; cbn; try (left; reflexivity).
  - right. left. split; [reflexivity | assumption].
  - right. right. exists a. repeat split; assumption.
Qed.
Lemma pstep_conf : forall P fl n p p', pstep P fl n p p' ->
  p_conf p' = p_conf p \/ (f_rl fl = true /\ p_conf p <> CDynamic /\ p_conf p' <> CDynamic).
Proof.
  intros P fl n p p' H. destruct H; unsched; cbn; try (left; reflexivity).
  - right. repeat split; assumption.
Qed.
Lemma pstep_state : forall P fl n p p', pstep P fl n p p' ->
  p_state p' = p_state p \/ (is_established p = false /\ p_state p' <> Established /\ p_state p' <> Inactive /\ is_enabled p = true).
Proof.
  intros P fl n p p' H. destruct H; unsched; cbn; try (left; reflexivity).
  - right. repeat split; assumption.
Qed.

(** ** The local invariant of a peer *)
Record pinv (P : params) (p : peer) : Prop := mk_pinv {
  pi_clean : p_state p = Inactive -> p_addr p = None /\ p_sock p = None /\ p_task p = None /\ p_sess p = None /\ p_old p = None;
  pi_est : p_state p = Established -> p_addr p <> None /\ p_sess p <> None;
  pi_sock : forall o i, p_sock p = Some (SDyn o i) -> o = p_id p;
  pi_cache : forall c, p_cache p = Some c -> c_shared P false (hc_serial c) (p_key p) (hc_hk c) = Some (hc_sigma c, hc_key c);
  pi_dyn : p_conf p = CDynamic -> p_remotes p = []
}.

Lemma is_est_true : forall p, is_established p = true <-> p_state p = Established.
Proof. intros p. unfold is_established. destruct (p_state p); split; congruence. Qed.
Lemma is_est_false : forall p, is_established p = false <-> p_state p <> Established.
Proof. intros p. unfold is_established. destruct (p_state p); split; congruence. Qed.
Lemma is_dyn_true : forall p, is_dynamic p = true <-> p_conf p = CDynamic.
Proof. intros p. unfold is_dynamic. destruct (p_conf p); split; congruence. Qed.

Lemma remotes_nil : forall l m, map pstatic l = map pstatic m -> m = [] -> l = [].
Proof. intros l m E ->. destruct l; [reflexivity | discriminate]. Qed.

Lemma pinv_pstep : forall P fl n p p', pstep P fl n p p' -> pinv P p -> pinv P p'.
Proof.
  intros P fl n p p' H [C E S K D]. unfold actp in *. constructor.
  - intros Hi. assert (Hi' : p_state p = Inactive).
    { destruct (pstep_state _ _ _ _ _ H) as [E1 | (_ & _ & X & _)]; congruence. }
    specialize (C Hi'). destruct C as (C1 & C2 & C3 & C4 & C5). clear E S K D.
    destruct H; unsched; cbn in *; try (repeat split; congruence); try (exfalso; congruence).
    destruct H0 as [H0 | H0]; repeat split; congruence.
  - intros He. destruct (pstep_state _ _ _ _ _ H) as [E1 | (_ & X & _)]; [|congruence]. rewrite E1 in He. specialize (E He). destruct E as [Ea Es].
    split.
    + destruct (pstep_addr _ _ _ _ _ H) as [X | [[_ X] | (a & _ & X & _)]]; [congruence | apply is_est_false in X; congruence | congruence].
    + clear E1. destruct H; unsched; cbn; try assumption; try discriminate.
  - destruct (pstep_const _ _ _ _ _ H) as [Ei _]. intros o i Hs. rewrite Ei. destruct H; unsched; cbn in Hs; try (exact (S o i Hs)).
    subst s. assumption.
  - destruct (pstep_const _ _ _ _ _ H) as (_ & Ek & _). intros c Hc. rewrite Ek. destruct H; unsched; cbn in Hc; try (exact (K c Hc)).
    subst c0. assumption.
  - intros Hd. destruct (pstep_const _ _ _ _ _ H) as (_ & _ & _ & _ & _ & _ & _ & Er). apply (remotes_nil _ _ Er). apply D.
    destruct (pstep_conf _ _ _ _ _ H) as [X | (_ & _ & X)]; congruence.
Qed.

(** ** Steps as changes of the list of peers *)
Inductive peers_step (n n' : node) : Prop :=
| PS_same : n_peers n' = n_peers n -> peers_step n n'
| PS_upd : forall pid p f, find_id (n_peers n) pid = Some p -> n_peers n' = upd_id (n_peers n) pid f ->
    p_id (f p) = p_id p -> p_key (f p) = p_key p ->
    (p_addr (f p) = p_addr p \/ p_addr (f p) = None \/
     exists a, p_addr (f p) = Some a /\ forall q, In q (n_peers n) -> p_id q <> p_id p -> p_addr q <> Some a) ->
    peers_step n n'
| PS_filter : forall g, n_peers n' = filter g (n_peers n) -> peers_step n n'
| PS_insert : forall c st, n_peers n' = n_peers n ++ [new_peer (n_next_id n) c st (k_serial (n_cur n))] ->
    n_next_id n' = (n_next_id n + 1)%N -> find_peer_key (n_peers n) (pc_key c) = None ->
    peers_step n n'
| PS_map : n_peers n' = map pre_reload (n_peers n) -> peers_step n n'.

Lemma nstep_peers : forall P ev fl n n', nstep P ev fl n n' ->
  peers_step n n' /\ (n_next_id n' = n_next_id n \/ n_next_id n' = (n_next_id n + 1)%N) /\ n_now n' = n_now n.
Proof.
  intros P ev fl n n' H. destruct H;
    try (split; [apply PS_same; reflexivity | split; [left; reflexivity | reflexivity]]).
  - split; [|split; [left; reflexivity | reflexivity]].
    eapply PS_upd; [exact H0 | reflexivity | reflexivity | reflexivity | left; reflexivity].
  - split; [|split; [left; reflexivity | reflexivity]]. pose proof (pstep_const _ _ _ _ _ H0) as (E1 & E2 & _).
    eapply PS_upd; [exact H | reflexivity | exact E1 | exact E2 |].
    destruct (pstep_addr _ _ _ _ _ H0) as [X | [[X _] | (a & _ & X)]]; [left; exact X | right; left; exact X | right; right; exists a; exact X].
  - split; [|split; [left; reflexivity | reflexivity]].
    eapply PS_upd; [exact H | reflexivity | reflexivity | reflexivity | left; reflexivity].
  - split; [|split; [left; reflexivity | reflexivity]].
    eapply PS_upd; [exact H | reflexivity | | | ]; destruct old; try reflexivity; left; reflexivity.
  - split; [|split; [left; destruct (is_established p); reflexivity | destruct (is_established p); reflexivity]].
    destruct (reset_fn_const P (set_p_sock None p)) as (E1 & E2 & _).
    destruct (reset_fn_fields P (set_p_sock None p)) as (_ & _ & _ & _ & _ & _ & _ & _ & _ & E4 & _).
    eapply PS_upd; [exact H | reflexivity | | | ]; rewrite H0;
      [rewrite E1; reflexivity | rewrite E2; reflexivity | right; left; exact E4].
  - split; [|split; [left; reflexivity | reflexivity]]. eapply PS_filter. reflexivity.
  - split; [|split; [right; reflexivity | reflexivity]]. eapply PS_insert; [reflexivity | reflexivity | exact H].
  - split; [|split; [left; reflexivity | reflexivity]]. apply PS_map. reflexivity.
  - split; [|split; [left; reflexivity | reflexivity]].
    eapply PS_upd; [exact H0 | reflexivity | cbv beta; unsup; reflexivity | cbv beta; unsup; reflexivity | cbv beta; unsup; left; reflexivity].
  - split; [|split; [left; reflexivity | reflexivity]].
    eapply PS_upd; [exact H0 | reflexivity | cbv beta; unsched; reflexivity | cbv beta; unsched; reflexivity | cbv beta; unsched; left; reflexivity].
Qed.

Lemma filter_sorted : forall (g : peer -> bool) l, StronglySorted N.lt (ids l) -> StronglySorted N.lt (ids (filter g l)).
Proof.
  intros g l. induction l as [|x l IH]; intros H; [constructor|]. cbn in H. apply StronglySorted_inv in H. destruct H as [H1 H2].
  cbn [filter]. destruct (g x); [|exact (IH H1)]. cbn. constructor; [exact (IH H1)|].
  rewrite Forall_forall in *. intros y Hy. apply H2. unfold ids in *. apply in_map_iff in Hy. destruct Hy as (z & <- & Hz).
  apply in_map. apply filter_In in Hz. exact (proj1 Hz).
Qed.
Lemma filter_nodup : forall A B (f : A -> B) (g : A -> bool) l, NoDup (map f l) -> NoDup (map f (filter g l)).
Proof.
  intros A B f g l. induction l as [|x l IH]; intros H; [constructor|]. cbn in H. inversion H as [|y l' Hn Hs E]; subst.
  cbn [filter]. destruct (g x); [|exact (IH Hs)]. cbn. constructor; [|exact (IH Hs)].
  intros Hin. apply Hn. apply in_map_iff in Hin. destruct Hin as (z & E & Hz). rewrite <- E. apply in_map.
  apply filter_In in Hz. exact (proj1 Hz).
Qed.

Lemma bytes_eqb_true : forall a b, bytes_eqb a b = true <-> a = b.
Proof. intros a b. unfold bytes_eqb. destruct (list_eq_dec N.eq_dec a b); split; intros; congruence. Qed.

Lemma find_peer_key_none : forall l k, find_peer_key l k = None -> ~ In k (map p_key l).
Proof.
  intros l k H Hin. apply in_map_iff in Hin. destruct Hin as (p & E & Hp). unfold find_peer_key in H.
  apply find_none with (x := p) in H; [|exact Hp]. rewrite <- Bool.not_true_iff_false in H. apply H. apply bytes_eqb_true. exact E.
Qed.

Lemma peers_step_wf : forall n n', peers_step n n' -> (n_next_id n <= n_next_id n')%N -> wf n -> wf n'.
Proof.
  intros n n' H Hid [[Hs Hlt] Ha Hk].
  assert (Hlt' : forall i, In i (ids (n_peers n)) -> (i < n_next_id n')%N).
  { intros i Hi. rewrite Forall_forall in Hlt. specialize (Hlt i Hi). lia. }
  destruct H as [E | pid p f Hf E Ei Ek Haddr | g E | c st E En Hnone | E].
  - constructor.
    + split; rewrite E; [exact Hs | rewrite Forall_forall; exact Hlt'].
    + unfold uniq_addr. rewrite E. exact Ha.
    + unfold uniq_key. rewrite E. exact Hk.
  - destruct (upd_split n pid f p (conj Hs Hlt) Hf) as (l1 & l2 & E1 & E2).
    assert (Emap : forall B (h : peer -> B), h (f p) = h p -> map h (n_peers n') = map h (n_peers n)).
    { intros B h Eh. rewrite E, E2, E1, !map_app. cbn [map]. rewrite Eh. reflexivity. }
    constructor.
    + unfold ids_ok, ids. rewrite (Emap _ p_id Ei). split; [exact Hs | rewrite Forall_forall; exact Hlt'].
    + intros x y a Hx Hy Ax Ay. rewrite E in Hx, Hy.
      apply (in_upd_found n pid f x p (conj Hs Hlt) Hf) in Hx. apply (in_upd_found n pid f y p (conj Hs Hlt) Hf) in Hy.
      apply find_id_in in Hf. destruct Hf as [Hp Epid].
      destruct Hx as [[Hx Nx] | ->], Hy as [[Hy Ny] | ->].
      * exact (Ha x y a Hx Hy Ax Ay).
      * rewrite Ei. destruct Haddr as [E3 | [E3 | (b & E3 & Hb)]]; rewrite E3 in Ay.
        -- exact (Ha x p a Hx Hp Ax Ay).
        -- discriminate.
        -- injection Ay as ->. exfalso. apply (Hb x Hx); [rewrite Epid; exact Nx | exact Ax].
      * rewrite Ei. destruct Haddr as [E3 | [E3 | (b & E3 & Hb)]]; rewrite E3 in Ax.
        -- exact (Ha p y a Hp Hy Ax Ay).
        -- discriminate.
        -- injection Ax as ->. exfalso. apply (Hb y Hy); [rewrite Epid; exact Ny | exact Ay].
      * reflexivity.
    + unfold uniq_key. rewrite (Emap _ p_key Ek). exact Hk.
  - constructor.
    + split; rewrite E; [apply filter_sorted; exact Hs|]. rewrite Forall_forall. intros i Hi. apply Hlt'.
      unfold ids in *. apply in_map_iff in Hi. destruct Hi as (z & <- & Hz). apply in_map. apply filter_In in Hz. exact (proj1 Hz).
    + intros x y a Hx Hy. rewrite E in Hx, Hy. apply filter_In in Hx. apply filter_In in Hy. apply Ha; [exact (proj1 Hx) | exact (proj1 Hy)].
    + unfold uniq_key. rewrite E. apply filter_nodup. exact Hk.
  - constructor.
    + unfold ids_ok, ids. rewrite E, map_app, En. cbn [map new_peer p_id]. split.
      * clear Hid Hlt' Ha Hk Hnone E En. unfold ids in *. revert Hs Hlt. generalize (map p_id (n_peers n)) as l. generalize (n_next_id n) as x.
        intros x l. induction l as [|y l IH]; intros Hs Hlt; [constructor; constructor|].
        apply StronglySorted_inv in Hs. destruct Hs as [Hs Hf]. inversion Hlt as [|z l' Hy Hl E]; subst. cbn. constructor; [exact (IH Hs Hl)|].
        apply Forall_app. split; [exact Hf | constructor; [exact Hy | constructor]].
      * apply Forall_app. split; [rewrite Forall_forall; intros i Hi; specialize (Hlt' i Hi); lia | constructor; [lia | constructor]].
    + intros x y a Hx Hy Ax Ay. rewrite E in Hx, Hy. apply in_app_or in Hx. apply in_app_or in Hy.
      destruct Hx as [Hx | [<- | []]]; [|discriminate]. destruct Hy as [Hy | [<- | []]]; [|discriminate].
      exact (Ha x y a Hx Hy Ax Ay).
    + unfold uniq_key. rewrite E, map_app. cbn [map new_peer p_key]. apply find_peer_key_none in Hnone.
      apply NoDup_rev in Hk. rewrite <- (rev_involutive (map p_key (n_peers n) ++ [pc_key c])). apply NoDup_rev. rewrite rev_app_distr. cbn.
      constructor; [|exact Hk]. intros Hin. apply Hnone. apply in_rev. exact Hin.
  - assert (E2 : forall B (h : peer -> B), (forall p, h (pre_reload p) = h p) -> map h (n_peers n') = map h (n_peers n)).
    { intros B h Eh. rewrite E, map_map. apply map_ext. exact Eh. }
    constructor.
    + unfold ids_ok, ids. rewrite (E2 _ p_id) by (intros p; destruct (pre_reload_const p) as (c & -> & _); reflexivity). split; [exact Hs | rewrite Forall_forall; exact Hlt'].
    + intros x y a Hx Hy Ax Ay. rewrite E in Hx, Hy. apply in_map_iff in Hx. apply in_map_iff in Hy.
      destruct Hx as (x0 & <- & Hx), Hy as (y0 & <- & Hy).
      destruct (pre_reload_const x0) as (c1 & X & _). destruct (pre_reload_const y0) as (c2 & Y & _).
      rewrite X in *. rewrite Y in *. exact (Ha x0 y0 a Hx Hy Ax Ay).
    + unfold uniq_key. rewrite (E2 _ p_key) by (intros p; destruct (pre_reload_const p) as (c & -> & _); reflexivity). exact Hk.
Qed.

Lemma wf_nstep : forall P ev fl n n', nstep P ev fl n n' -> wf n -> wf n'.
Proof.
  intros P ev fl n n' H Hw. apply nstep_peers in H. destruct H as (H & Hid & _).
  apply (peers_step_wf _ _ H); [|exact Hw]. destruct Hid as [-> | ->]; lia.
Qed.
Lemma wf_steps : forall P ev fl n n', steps P ev fl n n' -> wf n -> wf n'.
Proof. intros P ev fl n n' H. induction H as [|n n1 n2 Hs _ IH]; intros Hw; [exact Hw|]. apply IH. eapply wf_nstep; eassumption. Qed.
Lemma now_steps : forall P ev fl n n', steps P ev fl n n' -> n_now n' = n_now n.
Proof.
  intros P ev fl n n' H. induction H as [|n n1 n2 Hs _ IH]; [reflexivity|]. rewrite IH. apply nstep_peers in Hs. apply Hs.
Qed.


(** ** The local invariant over steps *)
Definition pinvs (P : params) (n : node) : Prop := forall p, In p (n_peers n) -> pinv P p.

Lemma pinv_reset : forall P p, pinv P p -> pinv P (reset_fn P (set_p_sock None p)).
Proof.
  intros P p [C E S K D].
  destruct (reset_fn_fields P (set_p_sock None p)) as (E1 & E2 & _ & _ & E5 & _ & E7 & E8 & _ & E10 & E11 & E12 & E13 & E14 & _ & E16).
  constructor.
  - intros _. rewrite E8, E10, E12, E13, E14. repeat split.
  - intros X. congruence.
  - intros o i X. rewrite E8 in X. discriminate.
  - intros c X. rewrite E16 in X. rewrite E2. exact (K c X).
  - intros X. rewrite E7 in X. rewrite E5. exact (D X).
Qed.

Lemma pinv_nstep : forall P ev fl n n', nstep P ev fl n n' -> ids_ok n ->
  pinvs P n -> pinvs P n'.
Proof.
  intros P ev fl n n' H Hi Hp q Hq.
  assert (Hup : forall pid p f, find_id (n_peers n) pid = Some p -> In q (upd_id (n_peers n) pid f) -> pinv P (f p) -> pinv P q).
  { intros pid p f Hf Hin Hpf. apply (in_upd_found n pid f q p Hi Hf) in Hin. destruct Hin as [[Hin _] | ->]; [exact (Hp q Hin) | exact Hpf]. }
  destruct H; cbn [n_peers set_n_orc set_n_floating set_n_resolving set_n_verifying set_n_next_sock set_n_eth set_n_out set_n_cur set_n_prev set_n_peers set_n_next_id set_n_next_sid] in *;
    try exact (Hp q Hq);
    try match goal with H : find_id (n_peers n) _ = Some _ |- _ =>
      assert (pinv P p) by (apply Hp; exact (proj1 (find_id_in _ _ _ H))) end.
  - eapply Hup; [exact H0 | exact Hq |]. destruct H1 as [C E S K D]. constructor; assumption.
  - eapply Hup; [exact H | exact Hq |]. eapply pinv_pstep; [exact H0 | assumption].
  - eapply Hup; [exact H | exact Hq |]. destruct H2 as [C E S K D]. constructor; assumption.
  - eapply Hup; [exact H | exact Hq |]. destruct H3 as [C E S K D]. destruct old; constructor; cbn; try assumption.
    + intros X. destruct (C X) as (_ & _ & _ & _ & Y). congruence.
    + intros X. destruct (C X) as (_ & _ & _ & Y & _). congruence.
    + intros X. destruct (E X) as [Y _]. split; [exact Y | discriminate].
  - eapply Hup; [exact H | exact Hq |]. rewrite H0. apply pinv_reset. assumption.
  - apply filter_In in Hq. exact (Hp q (proj1 Hq)).
  - apply in_app_or in Hq. destruct Hq as [Hq | [<- | []]]; [exact (Hp q Hq)|]. constructor; cbn; try discriminate.
    + intros _. repeat split.
    + intros ->. destruct H0 as [[_ X] | [_ ->]]; [discriminate | reflexivity].
  - apply in_map_iff in Hq. destruct Hq as (p & <- & Hin). specialize (Hp p Hin). destruct Hp as [C E S K D].
    destruct (pre_reload_const p) as (c & -> & Hc). constructor; cbn; try assumption. intros ->. apply D. apply Hc. reflexivity.
  - eapply Hup; [exact H0 | exact Hq |]. destruct H4 as [C E S K D]. cbv beta. unsup. constructor; cbn; try assumption.
    + intros X. exfalso. exact (H1 X).
    + intros X. destruct (E X) as [Y _]. split; [exact Y | discriminate].
  - eapply Hup; [exact H0 | exact Hq |]. destruct H7 as [C E S K D]. cbv beta. unsched. constructor; cbn; try assumption.
    + discriminate.
    + intros _. split; assumption.
Qed.

(** ** What a step does to each peer *)
Inductive pchange (P : params) (ev : event) (fl : flags) (n : node) (p : peer) : peer -> Prop :=
| PC_same : pchange P ev fl n p p
| PC_step : forall p', pstep P fl n p p' -> pchange P ev fl n p p'
| PC_seen : f_rx fl (p_id p) = true -> pchange P ev fl n p (set_p_reset_to (Some (n_now n + PEER_STALE_TIME)) p)
| PC_verdict : forall (ok : bool), is_dynamic p = true ->
    pchange P ev fl n p (let t := n_now n + (if ok then VERIFY_VALID_TIME else 0) in
                 set_p_reset_to (oadvance (p_reset_to p) t) (set_p_valid_to t p))
| PC_send : forall s (old : bool), (if old then p_old p else p_sess p) = Some s -> m_valid (n_now n) (ss_state s) = true ->
    pchange P ev fl n p
      ((let st := match ss_state s with MCommon c => MCommon (set_send c (increment_nonce (s_send c))) | MNull c => MNull c end in
          if old then set_p_old (Some (set_ss_state st s)) else set_p_sess (Some (set_ss_state st s))) p)
| PC_reset : f_rs fl (p_id p) = true -> pchange P ev fl n p (reset_fn P (set_p_sock None p))
| PC_pre : f_rl fl = true -> pchange P ev fl n p (pre_reload p)
| PC_session : forall method initiator compat hk key sigma serial src rnd, f_es fl (p_id p) = true -> actp p -> 0 <= rnd < KEY_REFRESH_SPLAY ->
    evidence P ev n p method initiator compat hk key sigma serial src ->
    pchange P ev fl n p
      (let st := if c_null P method then MNull {| n_initiator := initiator; n_compat := compat; n_valid := true |}
                 else MCommon (common_init (n_now n) initiator compat rnd) in
       set_p_serial serial (set_p_sess (Some (mk_psess (n_next_sid n) false false method st)) (superseded (n_now n) method p)))
| PC_up : f_up fl (p_id p) = true -> actp p -> is_established p = false -> is_enabled p = true ->
    may_connect P (n_peers n) p = true -> p_sess p <> None -> p_addr p <> None ->
    pchange P ev fl n p
      (sched (set_p_keep_to (Some (n_now n + KEEPALIVE_TIMEOUT)) (set_p_reset_to (Some (n_now n + PEER_STALE_TIME)) (set_p_state Established p)))).

Lemma find_id_filter : forall l pid q p, find_id (filter (fun p => negb (N.eqb (p_id p) pid)) l) q = Some p -> find_id l q = Some p /\ q <> pid.
Proof.
  induction l as [|x l IH]; intros pid q p H; [discriminate|]. cbn [filter] in H.
  destruct (N.eqb_spec (p_id x) pid) as [E|E]; cbn [negb] in H.
  - apply IH in H. destruct H as [H1 H2]. split; [|exact H2]. unfold find_id in *. cbn [find].
    destruct (N.eqb_spec (p_id x) q); [congruence | exact H1].
  - unfold find_id in *. cbn [find] in *. destruct (N.eqb_spec (p_id x) q) as [E2|E2].
    + split; [exact H | congruence].
    + apply IH in H. exact H.
Qed.
Lemma find_id_app : forall l x q p, find_id (l ++ [x]) q = Some p -> find_id l q = Some p \/ (p = x /\ p_id x = q).
Proof.
  induction l as [|y l IH]; intros x q p H; unfold find_id in *; cbn [find app] in *.
  - destruct (N.eqb_spec (p_id x) q) as [E|E]; [|discriminate]. injection H as <-. right. split; [reflexivity | exact E].
  - destruct (N.eqb (p_id y) q); [left; exact H | exact (IH x q p H)].
Qed.
Lemma find_id_map : forall l f q, (forall p, p_id (f p) = p_id p) -> find_id (map f l) q = option_map f (find_id l q).
Proof.
  induction l as [|y l IH]; intros f q Hf; [reflexivity|]. unfold find_id in *. cbn [find map]. rewrite Hf.
  destruct (N.eqb (p_id y) q); [reflexivity | exact (IH f q Hf)].
Qed.
Lemma find_upd_cases : forall n pid f p q p', ids_ok n -> find_id (n_peers n) pid = Some p -> p_id (f p) = p_id p ->
  find_id (upd_id (n_peers n) pid f) q = Some p' -> (q <> pid /\ find_id (n_peers n) q = Some p') \/ (q = pid /\ p' = f p).
Proof.
  intros n pid f p q p' Hi Hf Ef H.
  destruct (upd_split n pid f p Hi Hf) as (l1 & l2 & E1 & E2). rewrite E2 in H.
  assert (Ep : p_id p = pid) by (apply find_id_in in Hf; exact (proj2 Hf)).
  assert (Hn : forall x, In x l1 -> p_id x <> pid).
  { intros x Hx E. destruct Hi as [Hs _]. apply sorted_nodup in Hs. unfold ids in Hs. rewrite E1, map_app in Hs. cbn [map] in Hs.
    apply NoDup_remove in Hs. destruct Hs as [_ Hs]. apply Hs. apply in_or_app. left. rewrite Ep, <- E. apply in_map. exact Hx. }
  rewrite E1 in *. clear E1 E2 Hi. induction l1 as [|y l1 IH]; unfold find_id in *; cbn [app find] in *.
  - rewrite Ef, Ep in H. destruct (N.eqb_spec pid q) as [E|E].
    + right. injection H as <-. split; [symmetry; exact E | reflexivity].
    + left. split; [congruence|]. rewrite Ep. destruct (N.eqb_spec pid q); [congruence | exact H].
  - destruct (N.eqb_spec (p_id y) q) as [E|E].
    + left. injection H as <-. split; [|reflexivity]. intros ->. exact (Hn y (or_introl eq_refl) E).
    + apply IH; [|exact H|intros x Hx; apply Hn; right; exact Hx].
      destruct (N.eqb_spec (p_id y) pid) as [E3|E3]; [exfalso; exact (Hn y (or_introl eq_refl) E3) | exact Hf].
Qed.

Lemma nstep_find : forall P ev fl n n' q p', nstep P ev fl n n' -> ids_ok n -> find_id (n_peers n') q = Some p' ->
  (exists p, find_id (n_peers n) q = Some p /\ pchange P ev fl n p p') \/
  (q = n_next_id n /\ find_id (n_peers n) q = None /\ f_rs fl q = true /\
   exists c st, p' = new_peer q c st (k_serial (n_cur n)) /\ find_peer_key (n_peers n) (pc_key c) = None /\
     ((f_rl fl = true /\ st = CNew) \/ (st = CDynamic /\ c = dyn_conf P (pc_key c)))).
Proof.
  intros P ev fl n n' q p' H Hi Hq.
  assert (Hsame : find_id (n_peers n) q = Some p' -> exists p, find_id (n_peers n) q = Some p /\ pchange P ev fl n p p').
  { intros E. exists p'. split; [exact E | apply PC_same]. }
  assert (Hup : forall pid p f, find_id (n_peers n) pid = Some p -> p_id (f p) = p_id p -> pchange P ev fl n p (f p) ->
    find_id (upd_id (n_peers n) pid f) q = Some p' -> exists p, find_id (n_peers n) q = Some p /\ pchange P ev fl n p p').
  { intros pid p f Hf Ef Hc Hin. apply (find_upd_cases n pid f p q p' Hi Hf Ef) in Hin.
    destruct Hin as [[_ Hin] | [-> ->]]; [exact (Hsame Hin) | exists p; split; assumption]. }
  destruct H; cbn [n_peers set_n_orc set_n_floating set_n_resolving set_n_verifying set_n_next_sock set_n_eth set_n_out set_n_cur set_n_prev set_n_peers set_n_next_id set_n_next_sid] in *;
    try (left; exact (Hsame Hq)).
  - left. eapply Hup; [exact H0 | | | exact Hq]; [reflexivity|]. apply PC_seen. rewrite (proj2 (find_id_in _ _ _ H0)). exact H.
  - left. eapply Hup; [exact H | apply (pstep_const _ _ _ _ _ H0) | apply PC_step; exact H0 | exact Hq].
  - left. eapply Hup; [exact H | | | exact Hq]; [reflexivity|]. apply PC_verdict. exact H0.
  - left. eapply Hup; [exact H | | | exact Hq]; [destruct old; reflexivity|]. apply PC_send; assumption.
  - left. eapply Hup; [exact H | | | exact Hq]; rewrite H0; [apply (reset_fn_const P (set_p_sock None p)) | apply PC_reset; apply find_id_in in H; rewrite (proj2 H); assumption].
  - left. apply find_id_filter in Hq. exact (Hsame (proj1 Hq)).
  - apply find_id_app in Hq. destruct Hq as [Hq | [-> <-]]; [left; exact (Hsame Hq)|]. right. split; [reflexivity|].
    split; [|split; [assumption | exists c, st; repeat split; assumption]].
    destruct (find_id (n_peers n) _) as [y|] eqn:E; [|reflexivity]. exfalso. apply find_id_in in E. destruct E as [E1 E2]. cbn in E2.
    destruct Hi as [_ Hi]. rewrite Forall_forall in Hi. specialize (Hi (p_id y) (in_map p_id _ _ E1)). lia.
  - left. rewrite find_id_map in Hq by (intros y; destruct (pre_reload_const y) as (c & -> & _); reflexivity).
    destruct (find_id (n_peers n) q) as [y|]; [|discriminate]. injection Hq as <-. exists y. split; [reflexivity | apply PC_pre; assumption].
  - left. eapply Hup; [exact H0 | | | exact Hq]; [cbv beta; unsup; reflexivity|].
    eapply PC_session; try eassumption. rewrite (proj2 (find_id_in _ _ _ H0)). exact H.
  - left. eapply Hup; [exact H0 | | | exact Hq]; [cbv beta; unsched; reflexivity|].
    apply PC_up; try assumption. rewrite (proj2 (find_id_in _ _ _ H0)). exact H.
Qed.

Lemma pchange_static : forall P ev fl n p p', pchange P ev fl n p p' ->
  p_id p' = p_id p /\ p_key p' = p_key p /\ p_group p' = p_group p /\ p_dir p' = p_dir p /\ p_floating p' = p_floating p /\
  p_ifname p' = p_ifname p /\ p_mtu p' = p_mtu p /\ map pstatic (p_remotes p') = map pstatic (p_remotes p) /\
  (is_dynamic p' = is_dynamic p) /\ (f_rl fl = false -> p_conf p' = p_conf p).
Proof.
  intros P ev fl n p p' H. destruct H.
  - repeat split.
  - pose proof (pstep_const _ _ _ _ _ H) as (E1 & E2 & E3 & E4 & E5 & E6 & E7 & E8).
    repeat (split; [assumption|]). destruct (pstep_conf _ _ _ _ _ H) as [X | (X & Y & Z)].
    + unfold is_dynamic. rewrite X. split; [reflexivity | trivial].
    + split; [|congruence]. unfold is_dynamic. destruct (p_conf p), (p_conf p'); congruence.
  - cbn. repeat split.
  - cbn. repeat split.
  - destruct old; repeat split.
  - destruct (reset_fn_const P (set_p_sock None p)) as (E1 & E2 & E3 & E4 & E5 & E6 & E7 & E8 & E9).
    rewrite E8. unfold is_dynamic. rewrite E9. repeat (split; [assumption|]). repeat split.
  - destruct (pre_reload_const p) as (c & -> & Hc). cbn. repeat (split; [reflexivity|]). split; [|congruence].
    unfold is_dynamic. cbn. destruct (p_conf p), c; try reflexivity; exfalso; try (assert (CDynamic = CDynamic) by reflexivity; tauto);
      destruct Hc as [Hc1 Hc2]; first [discriminate (Hc1 eq_refl) | discriminate (Hc2 eq_refl)].
  - cbv zeta. unsup. cbn. repeat split.
  - unsched. cbn. repeat split.
Qed.
