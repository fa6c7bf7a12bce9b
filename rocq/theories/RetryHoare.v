(** What the functions of the node model do to the timers of peers, part 1: a small
    logic for predicates about all peers, and setting up peers *)
From Verif Require Import Base BufferModel NonceModel MethodModel HandshakeModel NodeModel NodeSteps NodeWf NodeSafe NodeSafe2 NodeKeep.
From Coq Require Import Lia ZifyBool ZifyNat ZifyN Sorted.
Local Open Scope Z_scope.

Section Hoare.
Variable t : Z.

(** the time is [t], and [F] holds for every peer *)
Definition every (F : peer -> Prop) (n : node) : Prop := n_now n = t /\ ids_ok n /\ forall p, In p (n_peers n) -> F p.
Definition tri {A} (F : peer -> Prop) (m : M A) (F' : A -> peer -> Prop) : Prop :=
  forall n x n', m n = Ok (x, n') -> every F n -> every (F' x) n'.
Definition tin {A} (F : peer -> Prop) (m : M A) : Prop := tri F m (fun _ => F).

Lemma tri_bnd : forall A B F (m : M A) F1 (k : A -> M B) F', tri F m F1 -> (forall x, tri (F1 x) (k x) F') -> tri F (bnd m k) F'.
Proof. intros A B F m F1 k F' H1 H2 n y n' H E. apply bnd_ok in H. destruct H as (x & m1 & Ha & Hb). exact (H2 x _ _ _ Hb (H1 _ _ _ Ha E)). Qed.
Lemma tri_then : forall A B F (m : M A) (k : A -> M B) F', tin F m -> (forall x, tri F (k x) F') -> tri F (bnd m k) F'.
Proof. intros A B F m k F' H1 H2. eapply tri_bnd; [exact H1 | exact H2]. Qed.
Lemma every_weak : forall (F F' : peer -> Prop) n, (forall p, F p -> F' p) -> every F n -> every F' n.
Proof. intros F F' n W (A & B & C). split; [exact A|]. split; [exact B|]. intros p Hp. apply W. exact (C p Hp). Qed.
Lemma tri_pre : forall A (E F : peer -> Prop) (m : M A) F', (forall p, E p -> F p) -> tri F m F' -> tri E m F'.
Proof. intros A E F m F' W H n x n' Hm He. eapply H; [exact Hm|]. eapply every_weak; eassumption. Qed.
Lemma tri_post : forall A F (m : M A) (F' F'' : A -> peer -> Prop), tri F m F' -> (forall x p, F' x p -> F'' x p) -> tri F m F''.
Proof. intros A F m F' F'' H W n x n' Hm He. eapply every_weak; [apply W | eapply H; eassumption]. Qed.
Lemma tri_ret : forall A (F : peer -> Prop) (x : A) (F' : A -> peer -> Prop), (forall p, F p -> F' x p) -> tri F (ret x) F'.
Proof. intros A F x F' W n y n' H E. apply ret_ok in H. destruct H as [-> ->]. eapply every_weak; eassumption. Qed.
Lemma tri_now : forall B F (k : Z -> M B) F', tri F (k t) F' -> tri F (bnd (gets n_now) k) F'.
Proof. intros B F k F' H n y n' Hk E. apply bnd_ok in Hk. destruct Hk as (x & m1 & Ha & Hb). apply gets_ok in Ha. destruct Ha as [-> ->]. rewrite (proj1 E) in Hb. exact (H _ _ _ Hb E). Qed.
Lemma tri_gets : forall A B F (f : node -> A) (k : A -> M B) F', (forall x, tri F (k x) F') -> tri F (bnd (gets f) k) F'.
Proof. intros A B F f k F' H n y n' Hk E. apply bnd_ok in Hk. destruct Hk as (x & m1 & Ha & Hb). apply gets_ok in Ha. destruct Ha as [-> ->]. exact (H _ _ _ _ Hb E). Qed.
Lemma tri_rd : forall B (F : peer -> Prop) pid (k : peer -> M B) F',
  (forall p, F p -> p_id p = pid -> tri (fun q => F q /\ (p_id q = pid -> q = p)) (k p) F') -> tri F (bnd (rd pid) k) F'.
Proof.
  intros B F pid k F' H n y n' Hk (A & I & E). apply bnd_ok in Hk. destruct Hk as (p & m1 & Ha & Hb). apply rd_ok in Ha. destruct Ha as [Hf ->].
  apply find_id_in in Hf. destruct Hf as [Hin Hid]. eapply H; [exact (E p Hin) | exact Hid | exact Hb|].
  split; [exact A|]. split; [exact I|]. intros q Hq. split; [exact (E q Hq)|]. intros Hqi. apply (ids_inj n q p I Hq Hin). congruence.
Qed.
Lemma tri_rd' : forall B (F : peer -> Prop) pid (k : peer -> M B) F', (forall p, F p -> p_id p = pid -> tri F (k p) F') -> tri F (bnd (rd pid) k) F'.
Proof. intros B F pid k F' H. apply tri_rd. intros p Hp Hi. eapply tri_pre; [|exact (H p Hp Hi)]. intros q [Hq _]. exact Hq. Qed.
Lemma tri_peers : forall B (F : peer -> Prop) (k : list peer -> M B) F',
  (forall l, (forall p q, In p l -> In q l -> p_id q = p_id p -> q = p) -> (forall p, In p l -> F p) -> tri (fun q => F q /\ In q l) (k l) F') -> tri F (bnd (gets n_peers) k) F'.
Proof.
  intros B F k F' H n y n' Hk (A & I & E). apply bnd_ok in Hk. destruct Hk as (l & m1 & Ha & Hb). apply gets_ok in Ha. destruct Ha as [-> ->].
  eapply H; [|exact E | exact Hb|]; [intros p q Hp Hq Hi; exact (ids_inj n q p I Hq Hp Hi)|]. split; [exact A|]. split; [exact I|]. intros q Hq. split; [exact (E q Hq) | exact Hq].
Qed.
Lemma tri_wr : forall (F : peer -> Prop) pid f (F' : peer -> Prop), keeps_id f -> (forall p, F p -> p_id p = pid -> F' (f p)) -> (forall p, F p -> p_id p <> pid -> F' p) ->
  tri F (wr pid f) (fun _ => F').
Proof.
  intros F pid f F' K H1 H2 n x n' Hw (A & I & E). apply wr_ok in Hw. destruct Hw as (p & Hf & ->). split; [exact A|]. split.
  - unfold ids_ok, ids in *. cbn [n_peers set_n_peers n_next_id]. unfold upd_id. rewrite map_map.
    replace (map _ (n_peers n)) with (map p_id (n_peers n)); [exact I|]. apply map_ext. intros q. destruct (N.eqb _ _); [symmetry; apply K | reflexivity].
  - intros q Hq. cbn [n_peers set_n_peers] in Hq. apply in_upd in Hq. destruct Hq as [[Hq Hi] | (p0 & Hp & Hi & ->)]; [exact (H2 q (E q Hq) Hi) | exact (H1 p0 (E p0 Hp) Hi)].
Qed.
Definition frames (f : node -> node) : Prop := forall n, n_now (f n) = n_now n /\ n_peers (f n) = n_peers n /\ n_next_id (f n) = n_next_id n.
Lemma tin_modn : forall F f, frames f -> tin F (modn f).
Proof. intros F f K n x n' H (A & I & E). apply modn_ok in H. subst n'. destruct (K n) as (K1 & K2 & K3). split; [congruence|]. split; [unfold ids_ok in *; rewrite K2, K3; exact I | rewrite K2; exact E]. Qed.
Lemma tin_emit : forall F o, tin F (emit o).
Proof. intros F o. apply tin_modn. intros n. repeat split. Qed.
Lemma tin_orc : forall A F (m : M A), (forall n x n', m n = Ok (x, n') -> exists l, n' = set_n_orc l n) -> tin F m.
Proof. intros A F m K n x n' H (A0 & I & E). destruct (K _ _ _ H) as [l ->]. repeat split; assumption || apply I. Qed.
Lemma pop_orc : forall n x n', pop n = Ok (x, n') -> exists l, n' = set_n_orc l n.
Proof. intros n x n' H. unfold pop in H. destruct (n_orc n) as [|y l] eqn:E; injection H as _ <-; [exists []; rewrite <- E; destruct n; reflexivity | exists l; reflexivity]. Qed.
Lemma tin_pop : forall F, tin F pop.
Proof. intros F. apply tin_orc. exact pop_orc. Qed.
Lemma tin_flip : forall F, tin F flip.
Proof. intros F. apply tin_orc. intros n x n' H. apply bnd_ok in H. destruct H as (y & m1 & Ha & Hb). apply ret_ok in Hb. destruct Hb as [_ ->]. exact (pop_orc _ _ _ Ha). Qed.
Lemma tri_rand : forall B F lo hi (k : Z -> M B) F', lo < hi -> (forall d, lo <= d < hi -> tri F (k d) F') -> tri F (bnd (rand lo hi) k) F'.
Proof.
  intros B F lo hi k F' Hlt H n y n' Hk E. apply bnd_ok in Hk. destruct Hk as (d & m1 & Ha & Hb). apply bnd_ok in Ha. destruct Ha as (z & m2 & Hc & Hd).
  apply ret_ok in Hd. destruct Hd as [<- ->]. eapply H; [|exact Hb | exact (tin_pop F _ _ _ Hc E)].
  pose proof (Z.mod_pos_bound (Z.of_N z) (hi - lo) ltac:(lia)). lia.
Qed.
Lemma tri_lift : forall A B F (r : res A) (k : A -> M B) F', (forall x, r = Ok x -> tri F (k x) F') -> tri F (bnd (lift r) k) F'.
Proof. intros A B F r k F' H n y n' Hk E. apply bnd_ok in Hk. destruct Hk as (x & m1 & Ha & Hb). apply lift_ok in Ha. destruct Ha as [Hr ->]. exact (H x Hr _ _ _ Hb E). Qed.
Lemma tin_use_sock : forall F sk, tin F (use_sock sk).
Proof. intros F sk n x n' H E. apply use_sock_ok in H. destruct H as [_ ->]. exact E. Qed.
Lemma tri_bug : forall A F (F' : A -> peer -> Prop), tri F exit_bug F'.
Proof. intros A F F' n x n' H. discriminate. Qed.
Lemma tri_fatal : forall A F (F' : A -> peer -> Prop), tri F exit_fatal F'.
Proof. intros A F F' n x n' H. discriminate. Qed.
Lemma tri_undef : forall A F (F' : A -> peer -> Prop), tri F undefined F'.
Proof. intros A F F' n x n' H. discriminate. Qed.
Lemma tin_when : forall (b : bool) F m, (b = true -> tin F m) -> tin F (when b m).
Proof. intros b F m H. unfold when. destruct b; [exact (H eq_refl) | apply tri_ret; trivial]. Qed.
Lemma tin_each : forall A F (f : A -> M unit) l, (forall x, tin F (f x)) -> tin F (each f l).
Proof. intros A F f l H. induction l as [|x l IH]; [apply tri_ret; trivial|]. apply tri_then; [apply H | intros _; exact IH]. Qed.
Lemma tin_filter : forall (F F' : peer -> Prop) pid, (forall p, F p -> p_id p <> pid -> F' p) ->
  tri F (modn (fun n => set_n_peers (filter (fun p => negb (N.eqb (p_id p) pid)) (n_peers n)) n)) (fun _ => F').
Proof.
  intros F F' pid W n x n' H (A & I & E). apply modn_ok in H. subst n'. split; [exact A|]. split.
  - destruct I as [I1 I2]. unfold ids_ok, ids in *. cbn [n_peers set_n_peers n_next_id]. split; [apply sorted_map_filter; exact I1|].
    rewrite Forall_forall in *. intros y Hy. apply in_map_iff in Hy. destruct Hy as (z & <- & Hz). apply filter_In in Hz. apply I2. apply in_map. apply Hz.
  - intros q Hq. cbn [n_peers set_n_peers] in Hq. apply filter_In in Hq. destruct Hq as [Hq Hn]. apply W; [exact (E q Hq)|]. intros X. rewrite X, N.eqb_refl in Hn. discriminate.
Qed.

(** ** Setting up peers *)
Variable P : params.
(** [p'] is [p] with other timers, addresses, sessions, and its remotes from the beginning *)
Record ready (p p' : peer) : Prop := mk_ready {
  rd_id : p_id p' = p_id p;
  rd_conf : p_conf p' = p_conf p;
  rd_remotes : map pstatic (p_remotes p') = map pstatic (p_remotes p);
  rd_literal : forall r, In r (p_remotes p') -> r_host r = None -> r_addrs r = [r_addr r];
  rd_next : p_next_remote p' = match p_remotes p' with [] => None | _ => Some 0%nat end;
  rd_reset : is_dynamic p = false -> p_reset_to p' = None;
  rd_lh : p_lh_to p' = t /\ p_lh_addr p' = None;
  rd_sess : p_sess p' = None \/ (p_state p = Inactive /\ p_sess p' = p_sess p)
}.
Definition fresh (p p' : peer) : Prop :=
  ready p p' /\ (is_enabled p = false -> p_state p' = Inactive) /\
  (is_enabled p = true ->
   match p_remotes p' with
   | [] => p_state p' = Passive
   | r :: _ => r_cur r = 0%nat /\ exists d tk, p_next_hs p' = Some (t + d) /\ p_task p' = Some tk /\ tk <= t + d /\ 0 <= d /\
       match r_host r with None => p_state p' = Handshaking /\ d < 3000 | Some _ => p_state p' = Resolving /\ d < 22500 end
   end).

Lemma sched_task : forall p h, p_next_hs p = Some h -> exists tk, p_task (sched p) = Some tk /\ tk <= h.
Proof.
  intros p h E. unfold sched. rewrite E.
  assert (X : exists m, omin (p_reset_to p) (omin (p_keep_to p) (Some h)) = Some m /\ m <= h).
  { destruct (p_reset_to p) as [a|], (p_keep_to p) as [b|]; cbn; eexists; (split; [reflexivity | lia]). }
  destruct X as (m & -> & Hm). destruct (p_task p) as [t'|] eqn:Et; [|exists m; split; [reflexivity | exact Hm]].
  destruct (Z.ltb_spec m t') as [Hlt|Hge]; [exists m; split; [reflexivity | exact Hm]|]. exists t'. split; [exact Et | lia].
Qed.
Lemma sched_keeps : keeps_id sched.
Proof. intros p. unsched. reflexivity. Qed.
Lemma tri_sched : forall (F : peer -> Prop) pid (F' : peer -> Prop), (forall p, F p -> p_id p = pid -> F' (sched p)) -> (forall p, F p -> p_id p <> pid -> F' p) ->
  tri F (schedule_peer_task pid) (fun _ => F').
Proof. intros F pid F' H1 H2. exact (tri_wr F pid sched F' sched_keeps H1 H2). Qed.
Lemma tri_next_hs : forall (F : peer -> Prop) pid d (F' : peer -> Prop), (forall p, F p -> p_id p = pid -> F' (set_p_next_hs (Some (t + d)) p)) -> (forall p, F p -> p_id p <> pid -> F' p) ->
  tri F (set_next_handshake pid d) (fun _ => F').
Proof. intros F pid d F' H1 H2. unfold set_next_handshake. apply tri_now. apply tri_wr; [intros p; reflexivity | exact H1 | exact H2]. Qed.
Lemma tri_schedule : forall (F : peer -> Prop) pid d (F' : peer -> Prop), (forall p, F p -> p_id p = pid -> F' (sched (set_p_next_hs (Some (t + d)) p))) -> (forall p, F p -> p_id p <> pid -> F' p) ->
  tri F (schedule_handshake pid d) (fun _ => F').
Proof.
  intros F pid d F' H1 H2. unfold schedule_handshake.
  apply tri_bnd with (F1 := fun _ q => (p_id q = pid -> exists p, F p /\ p_id p = pid /\ q = set_p_next_hs (Some (t + d)) p) /\ (p_id q <> pid -> F q)).
  - apply tri_next_hs; intros p Hp Hi.
    + split; [intros _; exists p; repeat split; assumption | intros X; contradiction].
    + split; [intros X; contradiction | intros _; exact Hp].
  - intros _. apply tri_sched; intros q [Ha Hb] Hi.
    + destruct (Ha Hi) as (p & Hp & Hpi & ->). exact (H1 p Hp Hpi).
    + exact (H2 q (Hb Hi) Hi).
Qed.

(** ** Resetting *)
Lemma tri_free_socket : forall (F : peer -> Prop) pid, (forall p s, F p -> p_id p = pid -> F (set_p_sock s p)) -> tin F (free_socket pid).
Proof.
  intros F pid H. unfold free_socket. apply tri_rd'. intros p Hp Hi. destruct (p_sock p) as [[k|o k]|].
  - apply tri_wr; [intros q; reflexivity | intros q Hq Hqi; apply H; assumption | intros q Hq _; exact Hq].
  - destruct (N.eqb o pid); [apply tri_wr; [intros q; reflexivity | intros q Hq Hqi; apply H; assumption | intros q Hq _; exact Hq] | apply tri_bug].
  - apply tri_ret. trivial.
Qed.
Definition cleared (p p' : peer) : Prop := p_id p' = p_id p /\ p_conf p' = p_conf p /\ p_remotes p' = p_remotes p /\ p_state p' = Inactive /\ p_task p' = None /\ p_sess p' = None.
Lemma tri_reset_peer : forall (F : peer -> Prop) pid, tri F (reset_peer P pid) (fun _ p' => (p_id p' <> pid -> F p') /\ (p_id p' = pid -> exists p, F p /\ p_id p = pid /\ cleared p p')).
Proof.
  intros F pid. unfold reset_peer. apply tri_rd'. intros p0 Hp0 Hi0.
  apply tri_then; [apply tin_when; intros _; apply tin_emit|]. intros _.
  apply tri_bnd with (F1 := fun _ p' => (p_id p' <> pid -> F p') /\ (p_id p' = pid -> exists p s, F p /\ p_id p = pid /\ p' = set_p_sock s p)).
  - apply tri_pre with (F := fun p' => (p_id p' <> pid -> F p') /\ (p_id p' = pid -> exists p s, F p /\ p_id p = pid /\ p' = set_p_sock s p)).
    + intros p Hp. split; [intros _; exact Hp|]. intros Hi. exists p, (p_sock p). split; [exact Hp|]. split; [exact Hi | destruct p; reflexivity].
    + apply tri_free_socket. intros p s [_ Hp] Hi. split; [intros X; contradiction|]. intros _. destruct (Hp Hi) as (q & s' & Hq & Hqi & ->). exists q, s. repeat split; assumption.
  - intros _. apply tri_then; [apply tin_modn; intros n; repeat split|]. intros _. apply tri_wr.
    + intros p. destruct (_ || _)%bool; reflexivity.
    + intros p [_ Hp] Hi. split; [intros X; exfalso; apply X; destruct (_ || _)%bool; exact Hi|]. intros _. destruct (Hp Hi) as (q & s & Hq & Hqi & ->).
      exists q. split; [exact Hq|]. split; [exact Hqi|]. destruct (_ || _)%bool; repeat split.
    + intros p [Hp _] Hi. split; [intros _; exact (Hp Hi) | intros X; contradiction].
Qed.

Lemma tri_rd_remote : forall B (F : peer -> Prop) pid i (k : remote -> M B) F',
  (forall p r, F p -> p_id p = pid -> nth_error (p_remotes p) i = Some r -> tri (fun q => F q /\ (p_id q = pid -> q = p)) (k r) F') -> tri F (bnd (rd_remote pid i) k) F'.
Proof.
  intros B F pid i k F' H n x n' Hm E. apply bnd_ok in Hm. destruct Hm as (r & m1 & Ha & Hb). unfold rd_remote in Ha.
  apply bnd_ok in Ha. destruct Ha as (p & m2 & Hc & Hd). cbv beta in Hd. destruct (nth_error (p_remotes p) i) as [r'|] eqn:Er; [|discriminate].
  apply ret_ok in Hd. destruct Hd as [<- ->].
  refine (tri_rd B F pid (fun p1 => match nth_error (p_remotes p1) i with Some r1 => k r1 | None => undefined end) F' _ n x n' _ E).
  - intros p1 Hp1 Hi1. destruct (nth_error (p_remotes p1) i) as [r1|] eqn:Er1; [|apply tri_undef]. exact (H p1 r1 Hp1 Hi1 Er1).
  - unfold bnd at 1. rewrite Hc. cbv beta iota. rewrite Er. exact Hb.
Qed.

(** [resolve_peer] only touches the pause between two lookups *)
Lemma tin_resolve : forall (F : peer -> Prop) pid i, (forall p x, F p -> p_id p = pid -> F (set_remote i (set_r_to x) p)) -> tin F (resolve_peer pid i).
Proof.
  intros F pid i H. unfold resolve_peer. apply tri_rd'. intros p Hp Hi. destruct (is_dynamic p); [apply tri_bug|].
  apply tri_rd_remote. intros p1 r Hp1 Hi1 Hr. apply tri_pre with (F := F); [intros q [Hq _]; exact Hq|]. apply tri_now.
  destruct (negb _); [apply tri_ret; trivial|].
  apply tri_then; [apply tri_wr; [intros q; reflexivity | intros q Hq Hqi; apply H; assumption | intros q Hq _; exact Hq]|]. intros _.
  apply tri_then; [apply tin_flip|]. intros ok. apply tin_when. intros _. apply tri_then; [apply tin_emit|]. intros _. apply tin_modn. intros n. repeat split.
Qed.

Lemma in_map_pstatic : forall l (f : remote -> remote) r, (forall x, pstatic (f x) = pstatic x) -> In r (map f l) -> exists x, In x l /\ r = f x.
Proof. intros l f r _ H. apply in_map_iff in H. destruct H as (x & <- & Hx). exists x. split; [exact Hx | reflexivity]. Qed.
Lemma ready_setup : forall p, p_state p = Inactive -> ready p (setup_fn t p).
Proof.
  intros p Hs. constructor; try reflexivity; try (split; reflexivity); try (right; split; [exact Hs | reflexivity]).
  - unfold setup_fn. cbn [p_remotes]. cbn. rewrite map_map. apply map_ext. intros r. reflexivity.
  - intros r Hr Hh. unfold setup_fn in Hr. cbn in Hr. apply in_map_iff in Hr. destruct Hr as (x & <- & Hx). cbn in *. rewrite Hh. reflexivity.
  - intros Hd. change (p_reset_to (setup_fn t p)) with (if is_dynamic p then Some t else None). rewrite Hd. reflexivity.
Qed.
Lemma ready_remote : forall p q i f, (forall r, pstatic (f r) = pstatic r) -> (forall r, r_addrs (f r) = r_addrs r) -> ready p q -> ready p (set_remote i f q).
Proof.
  intros p q i f H1 H2 [A B C D E D1 D2 D3]. constructor.
  - exact A.
  - exact B.
  - rewrite <- C. apply map_set_remote. exact H1.
  - intros r Hr Hh. unfold set_remote in Hr. cbn [p_remotes set_p_remotes] in Hr. apply in_app_or in Hr. destruct Hr as [Hr | Hr].
    + apply D; [|exact Hh]. rewrite <- (firstn_skipn i (p_remotes q)). apply in_or_app. left. exact Hr.
    + apply in_app_or in Hr. destruct Hr as [Hr | Hr].
      * destruct (nth_error (p_remotes q) i) as [x|] eqn:Ex; [|destruct Hr]. destruct Hr as [<- | []]. apply nth_error_In in Ex.
        specialize (H1 x). unfold pstatic in H1. injection H1 as Ha Hb. rewrite H2, Hb. apply D; [exact Ex | congruence].
      * apply D; [|exact Hh]. rewrite <- (firstn_skipn (S i) (p_remotes q)). apply in_or_app. right. exact Hr.
  - cbn [p_next_remote set_remote set_p_remotes]. rewrite E. pose proof (set_remote_nil q i f) as Hn.
    destruct (p_remotes q) as [|a l], (p_remotes (set_remote i f q)) as [|b m]; try reflexivity.
    + destruct Hn as [Hn _]. specialize (Hn eq_refl). discriminate.
    + destruct Hn as [_ Hn]. specialize (Hn eq_refl). discriminate.
  - exact D1.
  - exact D2.
  - exact D3.
Qed.

Lemma tri_setup : forall (F : peer -> Prop) pid, (forall p, F p -> p_id p = pid -> p_state p = Inactive) ->
  tri F (setup_peer P pid) (fun _ p' => (p_id p' <> pid -> F p') /\ (p_id p' = pid -> exists p, F p /\ p_id p = pid /\ fresh p p')).
Proof.
  intros F pid Hin. rewrite setup_halves. apply tri_now.
  apply tri_bnd with (F1 := fun _ q => (p_id q <> pid -> F q) /\ (p_id q = pid -> exists p, F p /\ p_id p = pid /\ ready p q /\ p_state q = Inactive)).
  { apply tri_wr; [intros p; reflexivity | |]; intros p Hp Hi.
    - split; [intros X; contradiction|]. intros _. exists p. split; [exact Hp|]. split; [exact Hi|]. split; [apply ready_setup; exact (Hin p Hp Hi) | exact (Hin p Hp Hi)].
    - split; [intros _; exact Hp | intros X; contradiction]. }
  intros _. unfold setup_rest. apply tri_rd. intros q0 [_ Hq0] Hi0. specialize (Hq0 Hi0). destruct Hq0 as (p0 & Hp0 & Hpi0 & R0 & S0).
  destruct (is_enabled q0) eqn:En; cbn [negb].
  2: { apply tri_ret. intros q [[Ha Hb] Hc]. split; [exact Ha|]. intros Hi. rewrite (Hc Hi). exists p0. split; [exact Hp0|]. split; [exact Hpi0|]. split; [exact R0|].
       split; [intros _; exact S0|]. intros X. exfalso. unfold is_enabled in *. rewrite (rd_conf _ _ R0) in En. congruence. }
  assert (Enp : is_enabled p0 = true) by (unfold is_enabled in *; rewrite <- (rd_conf _ _ R0); exact En).
  (* from here on, the peer is derived from [p0] *)
  apply tri_pre with (F := fun q => (p_id q <> pid -> F q) /\ (p_id q = pid -> ready p0 q /\ p_remotes q = p_remotes q0)).
  { intros q [[Ha Hb] Hc]. split; [exact Ha|]. intros Hi. rewrite (Hc Hi). split; [exact R0 | reflexivity]. }
  apply tri_then.
  { assert (Hw : tin (fun q => (p_id q <> pid -> F q) /\ (p_id q = pid -> ready p0 q /\ p_remotes q = p_remotes q0)) (wr pid (set_p_iface true))).
    { apply tri_wr; [intros q; reflexivity | |]; intros q [Ha Hb] Hi.
      - split; [intros X; contradiction|]. intros _. destruct (Hb Hi) as [[A B C D E D1 D2 D3] R]. split; [constructor; assumption | exact R].
      - split; assumption. }
    destruct (c_shared_iface P); [exact Hw|]. destruct (_ && _)%bool; [|apply tri_ret; trivial]. apply tri_then; [apply tin_flip|]. intros [|]; [exact Hw|].
    destruct (p_dir q0); [apply tri_ret; trivial | apply tri_fatal]. }
  intros _. pose proof (rd_next _ _ R0) as En0. destruct (p_remotes q0) as [|r0 rs0] eqn:Er0; rewrite En0.
  - (* no remotes *)
    apply tri_bnd with (F1 := fun _ q => (p_id q <> pid -> F q) /\ (p_id q = pid -> ready p0 q /\ p_remotes q = [] /\ p_state q = Passive)).
    { apply tri_wr; [intros q; reflexivity | |]; intros q [Ha Hb] Hi.
      - split; [intros X; contradiction|]. intros _. destruct (Hb Hi) as [[A B C D E D1 D2 D3] R]. split; [constructor; assumption|]. split; [exact R | reflexivity].
      - split; [exact Ha | intros X; contradiction]. }
    intros _. apply tri_sched; intros q [Ha Hb] Hi.
    + split; [intros X; exfalso; apply X; rewrite sched_keeps; exact Hi|]. intros _. exists p0. split; [exact Hp0|]. split; [exact Hpi0|].
      destruct (Hb Hi) as ([A B C D E D1 D2 D3] & R & S1). destruct (sched_is q) as [tk Etk]. rewrite Etk. split; [constructor; assumption|]. split; [intros X; congruence|].
      intros _. cbn [p_remotes set_p_task]. rewrite R. exact S1.
    + split; [exact Ha | intros X; contradiction].
  - pose (J := fun q => (p_id q <> pid -> F q) /\ (p_id q = pid -> ready p0 q /\ exists r, exists rs, p_remotes q = r :: rs /\ r_host r = r_host r0 /\ r_cur r = 0%nat)).
    apply tri_bnd with (F1 := fun _ q => J q /\ (p_id q = pid -> exists d, p_next_hs q = Some (t + d) /\ 0 <= d /\
      match r_host r0 with None => p_state q = Handshaking /\ d < 3000 | Some _ => p_state q = Resolving /\ d < 22500 end)).
    { apply tri_rd_remote. intros p1 r Hp1 Hi1 Hr. destruct Hp1 as [_ Hp1]. destruct (Hp1 Hi1) as [R1 E1]. rewrite E1 in Hr. cbn in Hr. injection Hr as <-.
      apply tri_pre with (F := fun q => (p_id q <> pid -> F q) /\ (p_id q = pid -> ready p0 q /\ exists r, exists rs, p_remotes q = r :: rs /\ r_host r = r_host r0)).
      { intros q [[Ha Hb] _]. split; [exact Ha|]. intros Hi. destruct (Hb Hi) as [R E]. split; [exact R|]. exists r0, rs0. split; [exact E | reflexivity]. }
      apply tri_bnd with (F1 := fun _ => J).
      { apply tri_wr; [intros q; reflexivity | |]; intros q [Ha Hb] Hi.
        - split; [intros X; contradiction|]. intros _. destruct (Hb Hi) as [R (r & rs & E & Hh)]. split; [apply ready_remote; [intros x; reflexivity | intros x; reflexivity | exact R]|].
          exists (set_r_cur 0 r), rs. split; [|split; [exact Hh | reflexivity]]. unfold set_remote. cbn [p_remotes set_p_remotes firstn app nth_error skipn]. rewrite E. reflexivity.
        - split; [exact Ha | intros X; contradiction]. }
      intros _. destruct (r_host r0) as [h|] eqn:Eh.
      - (* a hostname *)
        apply tri_bnd with (F1 := fun _ q => J q /\ (p_id q = pid -> p_state q = Resolving)).
        { apply tri_wr; [intros q; reflexivity | |]; intros q [Ha Hb] Hi.
          + split; [split; [intros X; contradiction|]|intros _; reflexivity]. intros _. destruct (Hb Hi) as [[A B C D E D1 D2 D3] R]. split; [constructor; assumption | exact R].
          + split; [split; assumption | intros X; contradiction]. }
        intros _. apply tri_then.
        { apply tin_resolve. intros q x [[Ha Hb] Hs] Hi. split; [|exact Hs]. split; [intros X; contradiction|]. intros _. destruct (Hb Hi) as [R (r & rs & E & Hh & Hc)].
          split; [apply ready_remote; [intros y; reflexivity | intros y; reflexivity | exact R]|]. exists (set_r_to x r), rs. split; [|split; [exact Hh | exact Hc]].
          unfold set_remote. cbn [p_remotes set_p_remotes firstn app nth_error skipn]. rewrite E. reflexivity. }
        intros _. unfold handshake_default_rand. apply tri_rand; [lia|]. intros d Hd. apply tri_next_hs; intros q [[Ha Hb] Hs] Hi.
        + split; [split; [intros X; contradiction|]; intros _; destruct (Hb Hi) as [[A B C D E D1 D2 D3] R]; split; [constructor; assumption | exact R]|].
          intros _. exists d. split; [reflexivity|]. split; [lia|]. split; [exact (Hs Hi) | lia].
        + split; [split; assumption | intros X; contradiction].
      - unfold init_handshake. apply tri_rd'. intros p2 _ _.
        assert (Hd : forall d, 0 <= d < 3000 -> tri J (wr pid (set_p_state Handshaking) ;; schedule_handshake pid d)
          (fun _ q => J q /\ (p_id q = pid -> exists d, p_next_hs q = Some (t + d) /\ 0 <= d /\ p_state q = Handshaking /\ d < 3000))).
        { intros d Hd. apply tri_bnd with (F1 := fun _ q => J q /\ (p_id q = pid -> p_state q = Handshaking)).
          - apply tri_wr; [intros q; reflexivity | |]; intros q [Ha Hb] Hi.
            + split; [split; [intros X; contradiction|]|intros _; reflexivity]. intros _. destruct (Hb Hi) as [[A B C D E D1 D2 D3] R]. split; [constructor; assumption | exact R].
            + split; [split; assumption | intros X; contradiction].
          - intros _. apply tri_schedule; intros q [[Ha Hb] Hs] Hi.
            + destruct (sched_is (set_p_next_hs (Some (t + d)) q)) as [tk ->].
              split; [split; [intros X; contradiction|]; intros _; destruct (Hb Hi) as [[A B C D E D1 D2 D3] R]; split; [constructor; assumption | exact R]|].
              intros _. exists d. split; [reflexivity|]. split; [lia|]. split; [exact (Hs Hi) | lia].
            + split; [split; assumption | intros X; contradiction]. }
        destruct (has_limits P p2).
        + apply tri_rand; [lia|]. exact Hd.
        + eapply tri_bnd; [apply tri_ret with (F' := fun d q => J q /\ d = 0); intros q Hq; split; [exact Hq | reflexivity]|].
          intros d n x n' Hm He. destruct (Z.eq_dec d 0) as [->|Hne].
          * eapply (Hd 0); [lia | exact Hm|]. eapply every_weak; [|exact He]. intros q [Hq _]. exact Hq.
          * exfalso. destruct He as (_ & _ & He). unfold bnd, wr in Hm. destruct (find_id (n_peers n) pid) as [q|] eqn:Ef; [|discriminate]. apply find_id_in in Ef. destruct Ef as [Ef _]. destruct (He q Ef) as [_ X]. contradiction. }
    intros _. apply tri_sched; intros q [[Ha Hb] Hs] Hi.
    + split; [intros X; exfalso; apply X; rewrite sched_keeps; exact Hi|]. intros _. exists p0. split; [exact Hp0|]. split; [exact Hpi0|].
      destruct (Hb Hi) as ([A B C D E D1 D2 D3] & r & rs & R & Hh & Hc). destruct (Hs Hi) as (d & H1 & H2 & H3). destruct (sched_task q _ H1) as (tk & T1 & T2).
      destruct (sched_is q) as [tk' Etk]. rewrite Etk in *. split; [constructor; assumption|]. split; [intros X; congruence|].
      intros _. cbn [p_remotes set_p_task]. rewrite R. split; [exact Hc|]. exists d, tk. split; [exact H1|]. split; [exact T1|]. split; [exact T2|]. split; [exact H2|].
      rewrite Hh. exact H3.
    + split; [exact Ha | intros X; contradiction].
Qed.

Lemma tri_peer_reset : forall (F : peer -> Prop) pid,
  tri F (peer_reset P pid) (fun _ p' => (p_id p' <> pid -> F p') /\ (p_id p' = pid -> exists p, F p /\ p_id p = pid /\ fresh p p')).
Proof.
  intros F pid. unfold peer_reset. apply tri_rd. intros p Hp Hi.
  apply tri_bnd with (F1 := fun _ p' => (p_id p' <> pid -> F p') /\ (p_id p' = pid -> p_state p' = Inactive /\ exists p, F p /\ p_id p = pid /\ p_id p' = p_id p /\ p_conf p' = p_conf p /\ p_remotes p' = p_remotes p /\ (p_sess p' = None \/ (p_state p = Inactive /\ p_sess p' = p_sess p)))).
  - assert (Hr : tri F (reset_peer P pid) (fun _ p' => (p_id p' <> pid -> F p') /\ (p_id p' = pid -> p_state p' = Inactive /\ exists p, F p /\ p_id p = pid /\ p_id p' = p_id p /\ p_conf p' = p_conf p /\ p_remotes p' = p_remotes p /\ (p_sess p' = None \/ (p_state p = Inactive /\ p_sess p' = p_sess p))))).
    { eapply tri_post; [apply tri_reset_peer|]. cbv beta. intros _ q [Ha Hb]. split; [exact Ha|]. intros Hqi. destruct (Hb Hqi) as (p1 & Hp1 & Hpi & A & B & C & D & _ & E).
      split; [exact D|]. exists p1. repeat split; try assumption. left. exact E. }
    assert (Hr' : tri (fun q => F q /\ (p_id q = pid -> q = p)) (reset_peer P pid) (fun _ p' => (p_id p' <> pid -> F p') /\ (p_id p' = pid -> p_state p' = Inactive /\ exists p, F p /\ p_id p = pid /\ p_id p' = p_id p /\ p_conf p' = p_conf p /\ p_remotes p' = p_remotes p /\ (p_sess p' = None \/ (p_state p = Inactive /\ p_sess p' = p_sess p))))).
    { eapply tri_pre; [|exact Hr]. intros q [Hq _]. exact Hq. }
    destruct (p_state p) eqn:Es; try exact Hr'. apply tri_ret. intros q [Hq Hqp]. split; [intros _; exact Hq|]. intros Hqi. specialize (Hqp Hqi). subst q.
    split; [exact Es|]. exists p. repeat split; try assumption. right. split; [exact Es | reflexivity].
  - intros _. eapply tri_post; [apply tri_setup; intros q [_ Hq] Hqi; exact (proj1 (Hq Hqi))|]. cbv beta. intros _ q [Ha Hb]. split.
    + intros Hqi. exact (proj1 (Ha Hqi) Hqi).
    + intros Hqi. destruct (Hb Hqi) as (p1 & [_ Hp1] & Hpi & Hf). destruct (Hp1 Hpi) as (_ & p2 & Hp2 & Hpi2 & A & B & C & S). exists p2. split; [exact Hp2|]. split; [exact Hpi2|].
      destruct Hf as ([R1 R2 R3 R4 R5 R6 R7 R8] & D1 & D2). assert (Een : is_enabled p2 = is_enabled p1) by (unfold is_enabled; rewrite B; reflexivity).
      assert (Edy : is_dynamic p2 = is_dynamic p1) by (unfold is_dynamic; rewrite B; reflexivity).
      split.
      { constructor; try congruence; try assumption; [rewrite Edy; exact R6|]. destruct R8 as [X | [_ X]]; [left; exact X|]. rewrite X. exact S. }
      rewrite Een. split; assumption.
Qed.
Lemma tri_peer_delete : forall (F : peer -> Prop) pid, tri F (peer_delete P pid) (fun _ p' => F p' /\ p_id p' <> pid).
Proof.
  intros F pid. unfold peer_delete. eapply tri_bnd; [apply tri_reset_peer|]. intros u. cbv beta. clear u. apply tin_filter. cbv beta. intros p [Ha _] Hi. split; [exact (Ha Hi) | exact Hi].
Qed.
End Hoare.
