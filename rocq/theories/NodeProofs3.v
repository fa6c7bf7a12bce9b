(** Proofs of the theorems about nodes, part 3: handshake keys, verification,
    connection limits, ids and addresses *)
From Verif Require Import Base BaseLemmas BufferModel NonceModel NonceProofs MethodModel HandshakeModel HandshakeSpec
  NodeModel NodeSteps NodeWf NodeInv NodeFun NodeFun2 NodeFun3 NodeFun4 NodeSpec NodeProofs NodeProofs2.
From Coq Require Import Lia ZifyBool ZifyNat ZifyN Sorted.
Local Open Scope Z_scope.

Lemma nstep_now : forall P ev fl n n', nstep P ev fl n n' -> n_now n' = n_now n.
Proof. intros P ev fl n n' H. eapply now_steps. apply steps_one. exact H. Qed.

(** ** Properties of each effect and what happened before *)
Lemma trace_ind : forall P (J : node -> Prop) (Q : Z -> out -> list (Z * out) -> Prop),
  (forall now orc, J (empty_node (Z.of_N now) orc)) ->
  (forall t n, inv P n -> 0 <= t -> J n -> J (set_n_now (n_now n + t) n)) ->
  (forall ev fl n n', nstep P ev fl n n' -> inv0 P n -> J n -> J n') ->
  (forall ev fl n n' o, nstep P ev fl n n' -> inv0 P n -> J n -> n_out n' = (n_now n, o) :: n_out n -> Q (n_now n) o (n_out n)) ->
  forall n, reachable P n -> J n /\ forall newer t o older, n_out n = newer ++ (t, o) :: older -> Q t o older.
Proof.
  intros P J Q J0 Jt Js Jq n R. refine (reachable_ind P (fun n => J n /\ forall newer t o older, n_out n = newer ++ (t, o) :: older -> Q t o older) _ _ _ n R).
  - intros now orc. split; [apply J0|]. intros newer t o older E. destruct newer; discriminate.
  - intros t m I Ht [A B]. split; [apply Jt; assumption | exact B].
  - intros ev fl a b H I [A B]. split; [eapply Js; eassumption|]. intros newer t o older E. destruct (nstep_out _ _ _ _ _ H) as [E2 | [o2 E2]].
    + rewrite E2 in E. exact (B _ _ _ _ E).
    + destruct newer as [|x newer].
      * rewrite E2 in E. injection E as <- <- <-. eapply Jq; eassumption.
      * rewrite E2 in E. injection E as _ E. exact (B _ _ _ _ E).
Qed.

(** ** C27: the numbers of ephemeral keys *)
Definition sessions_le (l : list (Z * out)) (R : N -> bytes -> Prop) (m : N) : Prop :=
  forall t pid key serial o, In (t, o) l -> is_session o pid key serial -> R pid key -> (serial <= m)%N.
Record kinv (n : node) : Prop := mk_kinv {
  ki_prev : (k_serial (n_prev n) <= k_serial (n_cur n))%N;
  ki_cur : sessions_le (n_out n) (fun _ _ => True) (k_serial (n_cur n));
  ki_id : forall q p, find_id (n_peers n) q = Some p -> sessions_le (n_out n) (fun pid _ => pid = q) (p_serial p);
  ki_key : forall q p, find_id (n_peers n) q = Some p -> is_dynamic p = false -> sessions_le (n_out n) (fun _ key => key = p_key p) (p_serial p);
  ki_low : forall q p, find_id (n_peers n) q = Some p -> (p_serial p <= k_serial (n_cur n))%N
}.
Lemma nstep_keys : forall P ev fl n n', nstep P ev fl n n' ->
  (n_cur n' = n_cur n /\ n_prev n' = n_prev n) \/
  (n_cur n' = mk_hkey (k_serial (n_cur n) + 1)%N (n_now n + 15000) (n_now n + 30000) /\ n_prev n' = n_cur n /\ n_peers n' = n_peers n /\ n_out n' = n_out n).
Proof.
  intros P ev fl n n' H. destruct H; try (left; split; reflexivity); [right; repeat split|]. left. destruct (is_established p); split; reflexivity.
Qed.
(** the number the peer has seen *)
Lemma pchange_serial : forall P ev fl n p p', pchange P ev fl n p p' ->
  p_serial p' = p_serial p \/
  (exists method initiator compat hk key sigma src, evidence P ev n p method initiator compat hk key sigma (p_serial p') src) \/
  (is_dynamic p = true /\ (p_serial p' = p_serial p - 1)%N /\ forall t o, In (t, o) (n_out n) -> out_pid o <> Some (p_id p)).
Proof.
  intros P ev fl n p p' H. destruct H; try (left; reflexivity).
  - destruct H; unsched; try (left; reflexivity). right. right. repeat split; assumption.
  - left. destruct old; reflexivity.
  - left. unfold reset_fn. cbv zeta. destruct (_ || _ || _)%bool; reflexivity.
  - left. destruct (pre_reload_const p) as (c & -> & _). reflexivity.
  - right. left. exists method, initiator, compat, hk, key, sigma, src. exact H2.
  - left. unsched. reflexivity.
Qed.

Lemma session_out : forall o pid key serial, is_session o pid key serial -> out_pid o = Some pid.
Proof. intros o pid key serial (a & b & c & d & e & f & g & h & ->). reflexivity. Qed.
(** a step that shows a session *)
Lemma nstep_shows : forall P ev fl n n' o pid key serial, nstep P ev fl n n' -> n_out n' = (n_now n, o) :: n_out n -> is_session o pid key serial ->
  exists p, find_id (n_peers n) pid = Some p /\ p_key p = key /\ (p_serial p < serial)%N /\
    (exists k, (k = n_cur n \/ k = n_prev n) /\ k_serial k = serial /\ n_now n < k_valid_till k) /\
    (is_dynamic p = true -> n_now n < p_valid_to p) /\
    n_cur n' = n_cur n /\ n_prev n' = n_prev n /\
    (exists f, n_peers n' = upd_id (n_peers n) pid f /\ p_serial (f p) = serial /\ p_id (f p) = p_id p /\ p_key (f p) = p_key p).
Proof.
  intros P ev fl n n' o pid key serial H E (conf & ini & hk & salt & sigma & method & sid & src & ->).
  destruct H; outcbn; try (exfalso; exact (cons_self _ _ _ E)); try (injection E as E; subst; contradiction); try (injection E as E; discriminate).
  - destruct (is_established p); [injection E as E; discriminate | exfalso; exact (cons_self _ _ _ E)].
  - cbv zeta in *. injection E as -> <- <- -> -> -> -> -> -> <- ->. exists p. split; [exact H0|]. split; [reflexivity|].
    destruct H3 as [_ _ X1 _ X2 _ X3 _ _]. split; [exact X2|]. split; [exact X1|]. split; [exact X3|]. split; [reflexivity|]. split; [reflexivity|].
    eexists. split; [reflexivity|]. split; [reflexivity|]. unsup. split; reflexivity.
Qed.

Lemma key_inj : forall n p q, wf n -> In p (n_peers n) -> In q (n_peers n) -> p_key p = p_key q -> p_id p = p_id q.
Proof. intros n p q [_ _ H] Hp Hq E. rewrite (keys_inj n p q H Hp Hq E). reflexivity. Qed.
Lemma session_dec : forall o, (exists pid key serial, is_session o pid key serial) \/ (forall pid key serial, ~ is_session o pid key serial).
Proof.
  intros o. destruct o; try (right; intros a b c (x1 & x2 & x3 & x4 & x5 & x6 & x7 & x8 & E); discriminate).
  left. do 3 eexists. do 8 eexists. reflexivity.
Qed.
Lemma session_fun : forall o pid key serial pid' key' serial', is_session o pid key serial -> is_session o pid' key' serial' -> pid' = pid /\ key' = key /\ serial' = serial.
Proof.
  intros o pid key serial pid' key' serial' (a & b & c & d & e & f & g & h & ->) (a' & b' & c' & d' & e' & f' & g' & h' & E).
  injection E. intros. subst. repeat split.
Qed.
Lemma kinv_nstep : forall P ev fl n n', nstep P ev fl n n' -> wf n -> kinv n -> kinv n'.
Proof.
  intros P ev fl n n' H W [K1 K2 K3 K4 K5]. pose proof (wf_ids _ W) as Hi.
  destruct (nstep_out _ _ _ _ _ H) as [Eo | [o Eo]]; [|destruct (session_dec o) as [(pid & key & serial & Ho) | Ho]].
  2: { destruct (nstep_shows _ _ _ _ _ _ _ _ _ H Eo Ho) as (p & Hp & Ek & Hlt & (k & Hk & Es & _) & _ & Ec & Ep & (f & Ef & Fs & Fi & Fk)).
    assert (Hle : (serial <= k_serial (n_cur n))%N) by (destruct Hk as [-> | ->]; lia).
    assert (Hfind : forall q p', find_id (n_peers n') q = Some p' -> (q <> pid /\ find_id (n_peers n) q = Some p') \/ (q = pid /\ p' = f p)).
    { intros q p' Hq. rewrite Ef in Hq. exact (find_upd_cases n pid f p q p' Hi Hp Fi Hq). }
    assert (Hnew : forall R m, sessions_le (n_out n) R m -> (R pid key -> (serial <= m)%N) -> sessions_le (n_out n') R m).
    { intros R m A B t pid1 key1 serial1 o1 Hin Hs HR. rewrite Eo in Hin. destruct Hin as [Hin | Hin]; [|exact (A _ _ _ _ _ Hin Hs HR)].
      injection Hin as <- <-. destruct (session_fun _ _ _ _ _ _ _ Ho Hs) as (-> & -> & ->). exact (B HR). }
    constructor.
    - rewrite Ec, Ep. exact K1.
    - rewrite Ec. apply Hnew; [exact K2 | intros _; exact Hle].
    - intros q p' Hq. destruct (Hfind q p' Hq) as [[Hne Hq0] | [-> ->]].
      + apply Hnew; [exact (K3 q p' Hq0) | congruence].
      + apply Hnew; [|intros _; lia]. intros t pid1 key1 serial1 o1 Hin Hs HR. pose proof (K3 pid p Hp t pid1 key1 serial1 o1 Hin Hs HR). lia.
    - intros q p' Hq Hd. destruct (Hfind q p' Hq) as [[Hne Hq0] | [-> ->]].
      + apply Hnew; [exact (K4 q p' Hq0 Hd)|]. intros E. exfalso. apply Hne. apply find_id_in in Hp. apply find_id_in in Hq0.
        destruct Hp as [Hp <-]. destruct Hq0 as [Hq0 <-]. apply (key_inj n); [exact W | exact Hq0 | exact Hp | congruence].
      + destruct (nstep_find _ _ _ _ _ _ _ H Hi Hq) as [(p1 & Hp1 & Hc) | (_ & X & _)]; [|congruence].
        rewrite Hp in Hp1. injection Hp1 as <-. destruct (pchange_static _ _ _ _ _ _ Hc) as (_ & _ & _ & _ & _ & _ & _ & _ & Ed & _).
        rewrite Hd in Ed. symmetry in Ed. apply Hnew; [|intros _; lia].
        intros t pid1 key1 serial1 o1 Hin Hs HR. rewrite Fk in HR. pose proof (K4 pid p Hp Ed t pid1 key1 serial1 o1 Hin Hs HR). lia.
    - intros q p' Hq. rewrite Ec. destruct (Hfind q p' Hq) as [[Hne Hq0] | [-> ->]]; [exact (K5 q p' Hq0) | lia]. }
  all: assert (Hold : forall R m, sessions_le (n_out n) R m -> sessions_le (n_out n') R m).
  1: rewrite Eo; trivial.
  2: { intros R m A t pid1 key1 serial1 o1 Hin Hs HR. rewrite Eo in Hin. destruct Hin as [Hin | Hin]; [|exact (A _ _ _ _ _ Hin Hs HR)].
       injection Hin as _ <-. exfalso. exact (Ho _ _ _ Hs). }
  all: assert (Hcur : (k_serial (n_cur n) <= k_serial (n_cur n'))%N) by (destruct (nstep_keys _ _ _ _ _ H) as [(-> & _) | (-> & _)]; cbn; lia).
  all: assert (Hser : forall p serial, (exists method initiator compat hk key sigma src, evidence P ev n p method initiator compat hk key sigma serial src) ->
         (p_serial p < serial <= k_serial (n_cur n))%N)
    by (intros p serial (m & i & c & hk & key & sg & src & [_ _ (k & Hk & Es & _) _ X _ _ _ _]); destruct Hk as [-> | ->]; lia).
  all: assert (Hge : forall R m m', sessions_le (n_out n) R m -> (m <= m')%N -> sessions_le (n_out n) R m')
    by (intros R m m' A B t pid1 key1 serial1 o1 Hin Hs HR; pose proof (A _ _ _ _ _ Hin Hs HR); lia).
  all: assert (Hall : forall (R : N -> bytes -> Prop), sessions_le (n_out n) R (k_serial (n_cur n)))
    by (intros R t pid1 key1 serial1 o1 Hin Hs HR; exact (K2 _ _ _ _ _ Hin Hs Logic.I)).
  all: constructor.
  all: try (destruct (nstep_keys _ _ _ _ _ H) as [(-> & ->) | (-> & -> & _)]; [exact K1 | cbn; lia]).
  all: try (apply Hold; eapply Hge; [exact K2 | exact Hcur]).
  all: match goal with |- forall q p, _ -> is_dynamic p = false -> _ => intros q p' Hq Hd | _ => intros q p' Hq end; try (apply Hold);
    destruct (nstep_find _ _ _ _ _ _ _ H Hi Hq) as [(p & Hp & Hc) | (_ & _ & _ & c & st & -> & _)]; [| first [exact (Hall _) | exact Hcur] ];
    destruct (pchange_static _ _ _ _ _ _ Hc) as (_ & Ek & _ & _ & _ & _ & _ & _ & Ed & _);
    destruct (pchange_serial _ _ _ _ _ _ Hc) as [E | [E | (E1 & E & E2)]].
  all: try (apply Hser in E; eapply Hge; [exact (Hall _) | lia]).
  all: try (rewrite E; exact (K3 q p Hp)).
  all: try (rewrite E, Ek; apply (K4 q p Hp); congruence).
  all: try (apply Hser in E).
  all: try (pose proof (K5 q p Hp); lia).
  all: try (eapply Hge; [apply (K3 q p Hp) | lia]).
  all: try (rewrite Ek; eapply Hge; [apply (K4 q p Hp); congruence | lia]).
  all: try congruence.
  all: intros t pid1 key1 serial1 o1 Hin Hs HR; exfalso; apply (E2 t o1 Hin); rewrite (proj2 (find_id_in _ _ _ Hp)); rewrite (session_out _ _ _ _ Hs); congruence.
Qed.

Lemma reachable_kinv : forall P n, reachable P n -> kinv n.
Proof.
  intros P n R. refine (reachable_ind P kinv _ _ _ n R).
  - intros now orc. constructor; try (intros q p Hq; discriminate); [cbn; lia|]. intros t pid key serial o [].
  - intros t m _ _ [K1 K2 K3 K4 K5]. constructor; assumption.
  - intros ev fl a b H I K. eapply kinv_nstep; [exact H | apply I | exact K].
Qed.

(** every session of a peer uses a newer ephemeral key than those before *)
Lemma serials_grow : forall P n newer t o older pid key serial, reachable P n -> n_out n = newer ++ (t, o) :: older ->
  is_session o pid key serial ->
  forall t' o' key' serial', In (t', o') older -> is_session o' pid key' serial' -> (serial' < serial)%N.
Proof.
  intros P n newer t o older pid key serial R E Ho.
  pose (Q := fun (t : Z) (o : out) (older : list (Z * out)) => forall pid key serial, is_session o pid key serial ->
    forall t' o' key' serial', In (t', o') older -> is_session o' pid key' serial' -> (serial' < serial)%N).
  refine (proj2 (trace_ind P kinv Q _ _ _ _ n R) newer t o older E pid key serial Ho).
  - intros now orc. constructor; try (intros q p Hq; discriminate); [cbn; lia|]. intros t1 pid1 key1 serial1 o1 [].
  - intros t1 m _ _ [K1 K2 K3 K4 K5]. constructor; assumption.
  - intros ev fl a b H I K. eapply kinv_nstep; [exact H | apply I | exact K].
  - intros ev fl a b o1 H I K Eo pid1 key1 serial1 Ho1 t' o' key' serial' Hin Ho'.
    destruct (nstep_shows _ _ _ _ _ _ _ _ _ H Eo Ho1) as (p & Hp & _ & Hlt & _).
    pose proof (ki_id _ K pid1 p Hp t' pid1 key' serial' o' Hin Ho' eq_refl). lia.
Qed.
Lemma serials_grow_key : forall P n newer t older pid key conf initiator serial hk salt sigma method sid src, reachable P n ->
  n_out n = newer ++ (t, OSession pid key conf initiator serial hk salt sigma method sid src) :: older -> conf <> CDynamic ->
  forall t' o' pid' serial', In (t', o') older -> is_session o' pid' key serial' -> (serial' < serial)%N.
Proof.
  intros P n newer t older pid key conf initiator serial hk salt sigma method sid src R E Hc.
  pose (Q := fun (t : Z) (o : out) (older : list (Z * out)) => forall pid key conf initiator serial hk salt sigma method sid src,
    o = OSession pid key conf initiator serial hk salt sigma method sid src -> conf <> CDynamic ->
    forall t' o' pid' serial', In (t', o') older -> is_session o' pid' key serial' -> (serial' < serial)%N).
  refine (proj2 (trace_ind P kinv Q _ _ _ _ n R) newer t _ older E pid key conf initiator serial hk salt sigma method sid src eq_refl Hc).
  - intros now orc. constructor; try (intros q p Hq; discriminate); [cbn; lia|]. intros t1 pid1 key1 serial1 o1 [].
  - intros t1 m _ _ [K1 K2 K3 K4 K5]. constructor; assumption.
  - intros ev fl a b H I K. eapply kinv_nstep; [exact H | apply I | exact K].
  - clear. intros ev fl a b o1 H I K Eo pid key conf initiator serial hk salt sigma method sid src -> Hc t' o' pid' serial' Hin Ho'.
    destruct (nstep_session _ _ _ _ _ _ _ _ _ _ _ _ _ _ _ _ _ H Eo) as (p & compat & Hp & Ek & Ec & _ & _ & Ev).
    assert (Hd : is_dynamic p = false) by (unfold is_dynamic; rewrite Ec; destruct conf; congruence).
    pose proof (ki_key _ K pid p Hp Hd t' pid' key serial' o' Hin Ho' (eq_sym Ek)). destruct Ev as [_ _ _ _ X _ _ _ _]. lia.
Qed.

(** ** Ephemeral keys are used for 30 seconds *)
Lemma keys_times : forall P n, reachable P n -> k_valid_till (n_cur n) <= n_now n + 30000 /\ k_valid_till (n_prev n) <= n_now n + 30000.
Proof.
  intros P n R. refine (reachable_ind P (fun n => k_valid_till (n_cur n) <= n_now n + 30000 /\ k_valid_till (n_prev n) <= n_now n + 30000) _ _ _ n R).
  - intros now orc. cbn. lia.
  - intros t m _ Ht H. cbn [n_cur n_prev n_now set_n_now]. lia.
  - intros ev fl a b H I K. rewrite (nstep_now _ _ _ _ _ H). destruct (nstep_keys _ _ _ _ _ H) as [(-> & ->) | (-> & -> & _)]; cbn [k_valid_till]; lia.
Qed.
Lemma keys_expire : forall P n n' t o pid key serial, reachable P n -> later P n n' -> newly n n' t o -> is_session o pid key serial ->
  (serial <= k_serial (n_cur n))%N -> t < n_now n + 30000.
Proof.
  intros P n n' t o pid key serial R L Hn Ho Hle. pose proof (keys_times P n R) as [T1 T2]. pose proof (ki_prev _ (reachable_kinv P n R)) as T3.
  pose (J := fun m : node =>
    (forall k, k = n_cur m \/ k = n_prev m -> (k_serial k <= k_serial (n_cur n))%N -> k_valid_till k <= n_now n + 30000) /\
    (k_serial (n_cur n) <= k_serial (n_cur m))%N /\
    exists l, n_out m = l ++ n_out n /\ forall t o pid key serial, In (t, o) l -> is_session o pid key serial -> (serial <= k_serial (n_cur n))%N -> t < n_now n + 30000).
  assert (X : J n' /\ inv P n').
  { apply (later_ind P J) with n; [| |exact (reachable_inv P n R) | exact L |].
    - intros t1 m _ _ H. exact H.
    - intros ev fl a b H I (A1 & A2 & l & A3 & A4). split; [|split].
      + destruct (nstep_keys _ _ _ _ _ H) as [(-> & ->) | (-> & -> & _)]; [exact A1|]. intros k [-> | ->] Hk; [cbn [k_serial] in Hk; lia | exact (A1 _ (or_introl eq_refl) Hk)].
      + destruct (nstep_keys _ _ _ _ _ H) as [(-> & _) | (-> & _)]; cbn [k_serial]; lia.
      + destruct (nstep_out _ _ _ _ _ H) as [Eo | [o1 Eo]].
        * exists l. split; [congruence | exact A4].
        * exists ((n_now a, o1) :: l). split; [rewrite Eo, A3; reflexivity|]. intros t2 o2 pid2 key2 serial2 [Hin | Hin] Hs Hl; [|exact (A4 _ _ _ _ _ Hin Hs Hl)].
          injection Hin as <- <-. destruct (nstep_shows _ _ _ _ _ _ _ _ _ H Eo Hs) as (p & _ & _ & _ & (k & Hk & Es & Hv) & _).
          rewrite <- Es in Hl. pose proof (A1 k Hk Hl). lia.
    - split; [intros k [-> | ->]; lia|]. split; [lia|]. exists []. split; [reflexivity|]. intros t1 o1 pid1 key1 serial1 []. }
  destruct X as [(_ & _ & l & El & Hl) _]. destruct Hn as (l' & El' & Hin). rewrite El in El'. apply app_inv_tail in El'. subst l'.
  exact (Hl _ _ _ _ _ Hin Ho Hle).
Qed.

(** ** C41: dynamic peers *)
Lemma pstep_valid_to : forall P fl n p p', pstep P fl n p p' -> p_valid_to p' = p_valid_to p \/ p_valid_to p' <= n_now n.
Proof. intros P fl n p p' H. destruct H; unsched; try (left; reflexivity). right. cbn. lia. Qed.
Lemma nstep_verdicts : forall P ev fl n n', nstep P ev fl n n' -> ids_ok n ->
  (exists pid p src (ok : bool), find_id (n_peers n) pid = Some p /\ n_out n' = (n_now n, OVerdict pid (p_key p) src ok) :: n_out n /\
    n_peers n' = upd_id (n_peers n) pid (fun p => let t := n_now n + (if ok then VERIFY_VALID_TIME else 0) in
                 set_p_reset_to (oadvance (p_reset_to p) t) (set_p_valid_to t p))) \/
  (forall q, last_verdict (n_out n') q = last_verdict (n_out n) q) /\
  forall q p', find_id (n_peers n') q = Some p' -> p_valid_to p' = 0 \/
    exists p, find_id (n_peers n) q = Some p /\ p_key p' = p_key p /\ is_dynamic p' = is_dynamic p /\ (p_valid_to p' = p_valid_to p \/ p_valid_to p' <= n_now n).
Proof.
  intros P ev fl n n' H Hi.
  assert (K : forall pid p f, find_id (n_peers n) pid = Some p -> p_id (f p) = p_id p -> p_key (f p) = p_key p -> is_dynamic (f p) = is_dynamic p ->
    p_valid_to (f p) = p_valid_to p \/ p_valid_to (f p) <= n_now n ->
    forall q p', find_id (upd_id (n_peers n) pid f) q = Some p' -> p_valid_to p' = 0 \/
    exists p, find_id (n_peers n) q = Some p /\ p_key p' = p_key p /\ is_dynamic p' = is_dynamic p /\ (p_valid_to p' = p_valid_to p \/ p_valid_to p' <= n_now n)).
  { intros pid p f Hf E1 E2 E3 E4 q p' Hq. right. destruct (find_upd_cases n pid f p q p' Hi Hf E1 Hq) as [[_ Hq0] | [-> ->]].
    - exists p'. split; [exact Hq0|]. split; [reflexivity|]. split; [reflexivity|]. left. reflexivity.
    - exists p. split; [exact Hf|]. split; [exact E2|]. split; [exact E3 | exact E4]. }
  assert (Hsame : forall q p', find_id (n_peers n) q = Some p' -> p_valid_to p' = 0 \/
    exists p, find_id (n_peers n) q = Some p /\ p_key p' = p_key p /\ is_dynamic p' = is_dynamic p /\ (p_valid_to p' = p_valid_to p \/ p_valid_to p' <= n_now n)).
  { intros q p' Hq. right. exists p'. split; [exact Hq|]. split; [reflexivity|]. split; [reflexivity|]. left. reflexivity. }
  destruct H; outcbn; try (right; split; [reflexivity | exact Hsame]).
  - right. split; [|exact Hsame]. intros q. destruct o; try contradiction; reflexivity.
  - right. split; [reflexivity|]. eapply K; try eassumption; try reflexivity. left. reflexivity.
  - right. split; [reflexivity|]. assert (Hc : pchange P ev fl n p (f p)) by (apply PC_step; exact H0).
    destruct (pchange_static _ _ _ _ _ _ Hc) as (E1 & E2 & _ & _ & _ & _ & _ & _ & E3 & _). eapply K; try eassumption. eapply pstep_valid_to. exact H0.
  - left. exists pid, p, src, ok. split; [exact H|]. split; reflexivity.
  - right. split; [reflexivity|]. eapply K; [exact H | | | |]; destruct old; try reflexivity; left; reflexivity.
  - right. split; [intros q; destruct (is_established p); reflexivity|].
    assert (Ep : n_peers (if is_established p then set_n_out ((n_now n, ODown pid) :: n_out n) n else n) = n_peers n) by (destruct (is_established p); reflexivity).
    eapply K; [exact H | | | |]; rewrite H0; unfold reset_fn; cbv zeta; destruct (_ || _ || _)%bool; try reflexivity; left; reflexivity.
  - right. split; [reflexivity|]. intros q p' Hq. apply find_id_filter in Hq. exact (Hsame q p' (proj1 Hq)).
  - right. split; [reflexivity|]. intros q p' Hq. cbn [n_peers set_n_peers set_n_next_id] in Hq. apply find_id_app in Hq. destruct Hq as [Hq | [-> _]]; [exact (Hsame q p' Hq) | left; reflexivity].
  - right. split; [reflexivity|]. intros q p' Hq. cbn [n_peers set_n_peers] in Hq.
    rewrite find_id_map in Hq by (intros y; destruct (pre_reload_const y) as (c & -> & _); reflexivity).
    destruct (find_id (n_peers n) q) as [y|] eqn:E; [|discriminate]. injection Hq as <-. right. exists y. split; [reflexivity|].
    assert (Hc : pchange P ev fl n y (pre_reload y)) by (apply PC_pre; assumption).
    destruct (pchange_static _ _ _ _ _ _ Hc) as (_ & E2 & _ & _ & _ & _ & _ & _ & E3 & _). split; [exact E2|]. split; [exact E3|]. left.
    destruct (pre_reload_const y) as (c & -> & _). reflexivity.
  - right. split; [reflexivity|]. eapply K; [exact H0 | | | |]; unsup; try reflexivity. left. reflexivity.
  - right. split; [reflexivity|]. eapply K; [exact H0 | | | |]; cbv beta; unsched; try reflexivity. left. reflexivity.
Qed.
Definition vinv (n : node) : Prop := 0 <= n_now n /\ forall q p, find_id (n_peers n) q = Some p -> is_dynamic p = true -> n_now n < p_valid_to p ->
  last_verdict (n_out n) q = Some (p_valid_to p - VERIFY_VALID_TIME, p_key p, true).
Lemma vinv_nstep : forall P ev fl n n', nstep P ev fl n n' -> ids_ok n -> vinv n -> vinv n'.
Proof.
  intros P ev fl n n' H Hi [V0 V]. unfold vinv. rewrite (nstep_now _ _ _ _ _ H). split; [exact V0|]. intros q p' Hq Hd Hlt.
  destruct (nstep_verdicts _ _ _ _ _ H Hi) as [(pid & p & src & ok & Hp & Eo & Ep) | [Eo Hk]].
  - rewrite Ep in Hq. rewrite Eo. cbn [last_verdict].
    eapply find_upd_cases in Hq; [|exact Hi | exact Hp | reflexivity]. destruct Hq as [[Hne Hq0] | [-> ->]].
    + destruct (N.eqb_spec pid q); [congruence|]. exact (V q p' Hq0 Hd Hlt).
    + rewrite N.eqb_refl. cbn [p_valid_to set_p_reset_to set_p_valid_to p_key] in *. destruct ok; [|lia]. do 3 f_equal. lia.
  - rewrite Eo. destruct (Hk q p' Hq) as [E | (p & Hp & E1 & E2 & E3)]; [lia|]. destruct E3 as [E3 | E3]; [|lia].
    rewrite E1, E3. apply V; [exact Hp | congruence | lia].
Qed.
(** sessions of dynamic peers follow an acceptance *)
Lemma dynamic_verified : forall P n newer t older pid key initiator serial hk salt sigma method sid src, reachable P n ->
  n_out n = newer ++ (t, OSession pid key CDynamic initiator serial hk salt sigma method sid src) :: older ->
  exists t0, last_verdict older pid = Some (t0, key, true) /\ t0 <= t < t0 + VERIFY_VALID_TIME.
Proof.
  intros P n newer t older pid key initiator serial hk salt sigma method sid src R E.
  pose (J := fun n => vinv n /\ forall q x, last_verdict (n_out n) q = Some x -> fst (fst x) <= n_now n).
  pose (Q := fun (t : Z) (o : out) (older : list (Z * out)) => forall pid key initiator serial hk salt sigma method sid src,
    o = OSession pid key CDynamic initiator serial hk salt sigma method sid src ->
    exists t0, last_verdict older pid = Some (t0, key, true) /\ t0 <= t < t0 + VERIFY_VALID_TIME).
  refine (proj2 (trace_ind P J Q _ _ _ _ n R) newer t _ older E pid key initiator serial hk salt sigma method sid src eq_refl).
  - intros now orc. split; [split; [cbn; lia | intros q p Hq; discriminate] | intros q x Hx; discriminate].
  - intros t1 m _ Ht [[V0 V] Ht1]. split; [split; [cbn; lia|] |].
    + intros q p Hq Hd Hlt. cbn [n_now set_n_now n_out n_peers] in *. apply V; [exact Hq | exact Hd | lia].
    + intros q x Hx. cbn [n_now set_n_now n_out] in *. pose proof (Ht1 q x Hx). lia.
  - intros ev fl a b H I [V T]. split; [eapply vinv_nstep; [exact H | apply I | exact V]|]. rewrite (nstep_now _ _ _ _ _ H). intros q x Hx.
    destruct (nstep_verdicts _ _ _ _ _ H (wf_ids _ (i_wf _ _ I))) as [(pid1 & p & src1 & ok & Hp & Eo & Ep) | [Eo Hk]].
    + rewrite Eo in Hx. cbn [last_verdict] in Hx. destruct (N.eqb pid1 q); [injection Hx as <-; cbn; lia | exact (T q x Hx)].
    + rewrite Eo in Hx. exact (T q x Hx).
  - clear. intros ev fl a b o1 H I [V T] Eo pid key initiator serial hk salt sigma method sid src ->.
    destruct (nstep_session _ _ _ _ _ _ _ _ _ _ _ _ _ _ _ _ _ H Eo) as (p & compat & Hp & Ek & Ec & _ & _ & Ev).
    destruct Ev as [_ _ _ _ _ _ X _ _]. assert (Hd : is_dynamic p = true) by (unfold is_dynamic; rewrite Ec; reflexivity).
    specialize (X Hd). pose proof (proj2 V pid p Hp Hd X) as L. exists (p_valid_to p - VERIFY_VALID_TIME). rewrite <- Ek. split; [exact L|].
    pose proof (T pid _ L) as Hle. cbn [fst] in Hle. lia.
Qed.

(** every result is about the address the packet came from, or the address given to
    the thread started for this very peer *)
Lemma verdict_source : forall P n dt ev n' t pid key src ok, reachable P n -> handles P n dt ev n' -> newly n n' t (OVerdict pid key src ok) ->
  (exists sk la d, ev = EvRecv sk la src d) \/ ((exists k, ev = EvVerified k ok) /\ exists t0, In (t0, OVerifyStart pid src) (n_out n')).
Proof.
  intros P n dt ev n' t pid key src ok R H Hn. destruct (handles_steps P n dt ev n' H (reachable_inv P n R)) as [I1 [[S2 _] I2]].
  change (newly (tick dt n) n' t (OVerdict pid key src ok)) in Hn.
  destruct (steps_new _ _ _ _ _ _ _ S2 Hn) as (m1 & m2 & S3 & Hs & S4 & Eo & Et).
  assert (V : verdict_of ev m1 pid src ok).
  { clear S4. destruct Hs; outcbn; try (exfalso; exact (cons_self _ _ _ Eo)); try (injection Eo as _ Eo; subst; contradiction); try (injection Eo as _ Eo; discriminate).
    - injection Eo as _ -> _ -> ->. assumption.
    - destruct (is_established p); [injection Eo as _ Eo; discriminate | exfalso; exact (cons_self _ _ _ Eo)]. }
  destruct ev; cbn [verdict_of] in V; try contradiction.
  - left. subst src. do 3 eexists. reflexivity.
  - right. destruct V as [-> [t0 Ht0]]. split; [eexists; reflexivity|]. exists t0.
    apply steps_one in Hs. destruct (out_steps _ _ _ _ _ (steps_trans _ _ _ _ _ _ Hs S4)) as [l ->]. apply in_or_app. right. exact Ht0.
Qed.

(** ** C32: limits *)
Definition no_up (fl : flags) : flags := mk_flags (f_rl fl) (f_cl fl) (f_rs fl) (f_es fl) no (f_rx fl) (f_tk fl) (f_rp fl) (f_lh fl).
Lemma nstep_up_cases : forall P ev fl n n', nstep P ev fl n n' ->
  nstep P ev (no_up fl) n n' \/
  exists pid p, find_id (n_peers n) pid = Some p /\ is_established p = false /\ may_connect P (n_peers n) p = true /\
    n_out n' = (n_now n, OUp pid) :: n_out n /\
    n_peers n' = upd_id (n_peers n) pid (fun p =>
            sched (set_p_keep_to (Some (n_now n + KEEPALIVE_TIMEOUT)) (set_p_reset_to (Some (n_now n + PEER_STALE_TIME)) (set_p_state Established p)))).
Proof.
  intros P ev fl n n' H. destruct H; [left | left | left | left | left | left | left | left | left | left | left | left | left | left | left | left | left | left | right].
  - apply N_orc.
  - apply N_floating.
  - apply N_resolving; assumption.
  - apply N_verifying; assumption.
  - apply N_next_sock.
  - apply N_eth; assumption.
  - apply N_out. destruct o; assumption.
  - apply N_deliver with p; assumption.
  - apply N_seen with p; assumption.
  - apply N_maint; assumption.
  - apply N_peer with p; [assumption|]. apply pstep_mono3 with fl; [trivial | trivial | trivial | trivial | assumption].
  - apply N_verdict; assumption.
  - eapply N_send; eassumption.
  - apply N_reset; assumption.
  - apply N_delete with p; assumption.
  - apply N_insert; assumption.
  - apply N_pre_reload; assumption.
  - eapply N_session with (p := p); eassumption.
  - exists pid, p. split; [assumption|]. split; [assumption|]. split; [assumption|]. split; reflexivity.
Qed.
Lemma count_one : forall n pid f p g, ids_ok n -> find_id (n_peers n) pid = Some p -> p_group (f p) = p_group p ->
  (count_group (upd_id (n_peers n) pid f) g <= count_group (n_peers n) g + (if in_group p g then 1 else 0))%nat.
Proof.
  intros n pid f p g Hi Hf Eg. destruct (upd_split n pid f p Hi Hf) as (l1 & l2 & E1 & E2). rewrite E2, E1.
  unfold count_group. rewrite !filter_app, !app_length. cbn [filter]. unfold in_group at 2. rewrite Eg. fold (in_group p g).
  destruct (in_group p g); destruct (is_established (f p)), (is_established p); cbn [andb length]; lia.
Qed.
Lemma count_limit : forall P n g m, reachable P n -> c_limit P g = Some m -> (count_group (n_peers n) g <= m)%nat.
Proof.
  intros P n g m R Hl. refine (reachable_ind P (fun n => (count_group (n_peers n) g <= m)%nat) _ _ _ n R).
  - intros now orc. cbn. lia.
  - intros t a _ _ H. exact H.
  - intros ev fl a b H I Hc. pose proof (wf_ids _ (i_wf _ _ I)) as Hi. destruct (nstep_up_cases _ _ _ _ _ H) as [H' | (pid & p & Hp & He & Hm & _ & Ep)].
    + pose proof (count_nstep _ _ _ _ _ g H' (fun _ => eq_refl) Hi). lia.
    + rewrite Ep. eapply Nat.le_trans; [eapply count_one; [exact Hi | exact Hp | cbv beta; unsched; reflexivity]|].
      destruct (in_group p g) eqn:Eg; [|lia]. unfold may_connect in Hm. rewrite He in Hm. rewrite forallb_forall in Hm.
      unfold in_group in Eg. apply existsb_exists in Eg. destruct Eg as (g' & Hg & E). apply Nat.eqb_eq in E. subst g'. specialize (Hm g Hg). rewrite Hl in Hm. lia.
Qed.
Lemma connected_count : forall n g, length (connected n g) = count_group (n_peers n) g.
Proof.
  intros n g. unfold connected, count_group. f_equal. apply filter_ext. intros p. unfold is_established, in_group. f_equal.
  destruct (in_dec Nat.eq_dec g (p_group p)) as [Hin | Hn].
  - symmetry. apply existsb_exists. exists g. split; [exact Hin | apply Nat.eqb_refl].
  - destruct (existsb (Nat.eqb g) (p_group p)) eqn:E; [|reflexivity]. apply existsb_exists in E. destruct E as (x & Hx & Ex). apply Nat.eqb_eq in Ex. subst x. contradiction.
Qed.

(** ** Effects and the states of the peers agree *)
Definition uinv (n : node) : Prop :=
  alternating (n_out n) /\ forall q, up (n_out n) q = true <-> exists p, find_id (n_peers n) q = Some p /\ is_established p = true.
Lemma up_plain : forall P ev fl n t o l q, plain_out P ev fl n o -> up ((t, o) :: l) q = up l q /\ (alternating l -> alternating ((t, o) :: l)).
Proof. intros P ev fl n t o l q H. destruct o; try contradiction; (split; [reflexivity | trivial]). Qed.

Definition est (l : list peer) (q : N) : Prop := exists p, find_id l q = Some p /\ is_established p = true.
Lemma est_upd : forall n pid f p q, ids_ok n -> find_id (n_peers n) pid = Some p -> p_id (f p) = p_id p ->
  (est (upd_id (n_peers n) pid f) q <-> if N.eqb q pid then is_established (f p) = true else est (n_peers n) q).
Proof.
  intros n pid f p q Hi Hf E. unfold est. rewrite (find_upd_fwd n pid f p q Hi Hf E). destruct (N.eqb_spec q pid) as [->|Hne]; [|tauto].
  split; [intros (p1 & E1 & H); congruence | intros H; exists (f p); split; [reflexivity | exact H]].
Qed.
Lemma est_same : forall n pid f p q, ids_ok n -> find_id (n_peers n) pid = Some p -> p_id (f p) = p_id p -> is_established (f p) = is_established p ->
  (est (upd_id (n_peers n) pid f) q <-> est (n_peers n) q).
Proof.
  intros n pid f p q Hi Hf E Ee. rewrite (est_upd n pid f p q Hi Hf E). destruct (N.eqb_spec q pid) as [->|Hne]; [|tauto].
  unfold est. rewrite Ee. split; [intros H; exists p; split; assumption | intros (p1 & E1 & H); congruence].
Qed.
Lemma uinv_nstep : forall P ev fl n n', nstep P ev fl n n' -> ids_ok n -> uinv n -> uinv n'.
Proof.
  intros P ev fl n n' H Hi [A U]. change (forall q, up (n_out n) q = true <-> est (n_peers n) q) in U.
  assert (K : forall o n1, n_out n1 = (n_now n, o) :: n_out n -> match o with OUp _ | ODown _ => False | _ => True end ->
     (forall q, est (n_peers n1) q <-> est (n_peers n) q) -> uinv n1).
  { intros o n1 Eo Ho E. split.
    - rewrite Eo. destruct o; try contradiction; exact A.
    - intros q. change (up (n_out n1) q = true <-> est (n_peers n1) q). rewrite E, <- U, Eo. assert (Eu : up ((n_now n, o) :: n_out n) q = up (n_out n) q) by (clear - Ho; destruct o; first [contradiction | reflexivity]). rewrite Eu. reflexivity. }
  assert (K0 : forall n1, n_out n1 = n_out n -> (forall q, est (n_peers n1) q <-> est (n_peers n) q) -> uinv n1).
  { intros n1 Eo E. split; [rewrite Eo; exact A|]. intros q. change (up (n_out n1) q = true <-> est (n_peers n1) q). rewrite E, <- U, Eo. reflexivity. }
  destruct H; try (apply K0; [reflexivity | intros q; reflexivity]).
  - eapply K; [reflexivity | | intros q; reflexivity]. destruct o; try contradiction; exact Logic.I.
  - eapply K; [reflexivity | exact Logic.I | intros q; reflexivity].
  - eapply K; [reflexivity | exact Logic.I|]. intros q. eapply est_same; [exact Hi | exact H0 | reflexivity | reflexivity].
  - apply K0; [reflexivity|]. intros q. eapply est_same; [exact Hi | exact H | apply (pstep_const _ _ _ _ _ H0)|].
    destruct (pstep_state _ _ _ _ _ H0) as [E | (E1 & E2 & _)]; unfold is_established in *; [rewrite E; reflexivity|].
    destruct (p_state (f p)); try reflexivity; try congruence; destruct (p_state p); congruence.
  - eapply K; [reflexivity | exact Logic.I|]. intros q. eapply est_same; [exact Hi | exact H | reflexivity | reflexivity].
  - eapply K; [reflexivity | exact Logic.I|]. intros q. eapply est_same; [exact Hi | exact H | destruct old; reflexivity | destruct old; reflexivity].
  - assert (E : forall q, est (n_peers n) q -> q <> pid -> est (upd_id (n_peers n) pid f) q).
    { intros q Hq Hne. apply (est_upd n pid f p q Hi H); [rewrite H0; apply (reset_fn_const P (set_p_sock None p))|]. destruct (N.eqb_spec q pid); [congruence | exact Hq]. }
    assert (E' : forall q, est (upd_id (n_peers n) pid f) q -> q <> pid /\ est (n_peers n) q).
    { intros q Hq. apply (est_upd n pid f p q Hi H) in Hq; [|rewrite H0; apply (reset_fn_const P (set_p_sock None p))]. destruct (N.eqb_spec q pid) as [Eq|Hne]; [exfalso | split; assumption].
      rewrite H0 in Hq. unfold reset_fn, is_established in Hq. cbv zeta in Hq. destruct (_ || _ || _)%bool in Hq; discriminate. }
    destruct (is_established p) eqn:Ep.
    + split.
      * cbn [n_out set_n_peers set_n_eth set_n_out alternating]. split; [apply U; exists p; split; assumption | exact A].
      * intros q. cbn [n_out n_peers set_n_peers set_n_eth set_n_out up]. change (exists p0, find_id (upd_id (n_peers n) pid f) q = Some p0 /\ is_established p0 = true) with (est (upd_id (n_peers n) pid f) q).
        destruct (N.eqb_spec pid q) as [->|Hne].
        -- split; [discriminate|]. intros X. apply E' in X. exfalso. apply (proj1 X). reflexivity.
        -- rewrite U. split; [intros X; apply E; [exact X | congruence] | intros X; apply E' in X; apply X].
    + apply K0; [reflexivity|]. intros q. cbn [n_peers set_n_peers set_n_eth]. split; [intros X; apply E' in X; apply X|].
      intros X. apply E; [exact X|]. intros ->. destruct X as (p1 & X1 & X2). congruence.
  - apply K0; [reflexivity|]. intros q. cbn [n_peers set_n_peers]. split.
    + intros (p1 & X1 & X2). apply find_id_filter in X1. exists p1. split; [apply X1 | exact X2].
    + intros (p1 & X1 & X2). exists p1. split; [|exact X2]. assert (Hne : q <> pid).
      { intros ->. rewrite H in X1. injection X1 as <-. unfold is_established in X2. rewrite H0 in X2. discriminate. }
      clear - X1 Hne. unfold find_id in *. induction (n_peers n) as [|x l IH]; [discriminate|]. cbn [filter find] in *.
      destruct (N.eqb_spec (p_id x) pid) as [E1|E1]; cbn [negb].
      * destruct (N.eqb_spec (p_id x) q) as [E2|E2]; [congruence | exact (IH X1)].
      * cbn [find]. destruct (N.eqb (p_id x) q); [exact X1 | exact (IH X1)].
  - apply K0; [reflexivity|]. intros q. cbn [n_peers set_n_peers set_n_next_id]. split.
    + intros (p1 & X1 & X2). apply find_id_app in X1. destruct X1 as [X1 | [-> _]]; [exists p1; split; assumption | discriminate].
    + intros (p1 & X1 & X2). exists p1. split; [|exact X2]. clear - X1. unfold find_id in *. induction (n_peers n) as [|x l IH]; [discriminate|].
      cbn [app find] in *. destruct (N.eqb (p_id x) q); [exact X1 | exact (IH X1)].
  - apply K0; [reflexivity|]. intros q. unfold est. cbn [n_peers set_n_peers].
    rewrite find_id_map by (intros y; destruct (pre_reload_const y) as (c & -> & _); reflexivity).
    assert (Ey : forall y, is_established (pre_reload y) = is_established y) by (intros y; destruct (pre_reload_const y) as (c & -> & _); reflexivity).
    destruct (find_id (n_peers n) q) as [y|].
    + split; intros (p1 & X1 & X2); injection X1 as <-; eexists; (split; [reflexivity|]); rewrite Ey in *; exact X2.
    + split; intros (p1 & X1 & X2); discriminate.
  - eapply K; [reflexivity | exact Logic.I|]. intros q. eapply est_same; [exact Hi | exact H0 | |]; cbv beta; unsup; reflexivity.
  - assert (E : forall q, est (upd_id (n_peers n) pid (fun p => sched (set_p_keep_to (Some (n_now n + KEEPALIVE_TIMEOUT)) (set_p_reset_to (Some (n_now n + PEER_STALE_TIME)) (set_p_state Established p))))) q <->
      (if N.eqb q pid then True else est (n_peers n) q)).
    { intros q. rewrite (est_upd n pid _ p q Hi H0) by (cbv beta; unsched; reflexivity). destruct (N.eqb q pid); [|tauto]. cbv beta. unsched. split; [trivial | reflexivity]. }
    split.
    + cbn [n_out set_n_out alternating]. split; [|exact A]. destruct (up (n_out n) pid) eqn:Eu; [|reflexivity]. apply U in Eu. destruct Eu as (p1 & X1 & X2). congruence.
    + intros q. cbn [n_out n_peers set_n_out set_n_peers up]. fold (est (upd_id (n_peers n) pid (fun p => sched (set_p_keep_to (Some (n_now n + KEEPALIVE_TIMEOUT)) (set_p_reset_to (Some (n_now n + PEER_STALE_TIME)) (set_p_state Established p))))) q).
      rewrite E. rewrite (N.eqb_sym q pid). destruct (N.eqb pid q); [tauto | apply U].
Qed.
Lemma reachable_uinv : forall P n, reachable P n -> uinv n.
Proof.
  intros P n R. refine (reachable_ind P uinv _ _ _ n R).
  - intros now orc. split; [exact Logic.I|]. intros q. cbn. split; [discriminate | intros (p & E & _); discriminate].
  - intros t a _ _ H. exact H.
  - intros ev fl a b H I U. eapply uinv_nstep; [exact H | apply I | exact U].
Qed.

(** ** C34: ids *)
Lemma later_next : forall P n n', reachable P n -> later P n n' -> (n_next_id n <= n_next_id n')%N.
Proof.
  intros P n n' R L. refine (proj1 (later_ind P (fun m => (n_next_id n <= n_next_id m)%N) _ _ n n' (reachable_inv P n R) L _)).
  - intros t m _ _ H. exact H.
  - intros ev fl a b H _ Hj. pose proof (next_id_nstep _ _ _ _ _ H). lia.
  - lia.
Qed.
Lemma found_in : forall n p, ids_ok n -> In p (n_peers n) -> find_id (n_peers n) (p_id p) = Some p.
Proof. intros n p Hi Hin. apply in_find; assumption. Qed.
(** a peer with an id that was in use is the same peer *)
Lemma same_peer : forall P n n' p', reachable P n -> later P n n' -> In p' (n_peers n') -> (p_id p' < n_next_id n)%N ->
  exists p, In p (n_peers n) /\ p_id p = p_id p' /\ p_key p = p_key p' /\ p_group p = p_group p' /\ is_dynamic p = is_dynamic p'.
Proof.
  intros P n n' p' R L Hin Hlt.
  pose (J := fun m => (n_next_id n <= n_next_id m)%N /\ forall q p', find_id (n_peers m) q = Some p' -> (q < n_next_id n)%N ->
    exists p, In p (n_peers n) /\ p_id p = q /\ p_key p = p_key p' /\ p_group p = p_group p' /\ is_dynamic p = is_dynamic p').
  assert (X : J n' /\ inv P n').
  { apply (later_ind P J) with n; [| |exact (reachable_inv P n R) | exact L |].
    - intros t m _ _ H. exact H.
    - intros ev fl a b H I [Hle Hj]. split; [pose proof (next_id_nstep _ _ _ _ _ H); lia|]. intros q p1 Hq Hl.
      destruct (nstep_find _ _ _ _ _ _ _ H (wf_ids _ (i_wf _ _ I)) Hq) as [(p0 & Hp0 & Hc) | (E & _)]; [|lia].
      destruct (pchange_static _ _ _ _ _ _ Hc) as (_ & E2 & E3 & _ & _ & _ & _ & _ & E9 & _). rewrite E2, E3, E9. exact (Hj q p0 Hp0 Hl).
    - split; [lia|]. intros q p1 Hq _. apply find_id_in in Hq. exists p1. split; [apply Hq|]. split; [apply Hq|]. repeat split. }
  destruct X as [[_ X] I']. exact (X (p_id p') p' (found_in n' p' (wf_ids _ (i_wf _ _ (i_0 _ _ I'))) Hin) Hlt).
Qed.
Lemma id_below : forall P n p, reachable P n -> In p (n_peers n) -> (p_id p < n_next_id n)%N.
Proof.
  intros P n p R Hin. pose proof (wf_ids _ (i_wf _ _ (i_0 _ _ (reachable_inv P n R)))) as [_ H]. rewrite Forall_forall in H. apply H. unfold ids. apply in_map. exact Hin.
Qed.
(** an id is not given again after its peer is gone *)
Lemma gone_for_good : forall P n n1 n2 p p2, reachable P n -> later P n n1 -> later P n1 n2 -> In p (n_peers n) -> In p2 (n_peers n2) -> p_id p2 = p_id p ->
  p_key p2 = p_key p /\ exists p1, In p1 (n_peers n1) /\ p_id p1 = p_id p.
Proof.
  intros P n n1 n2 p p2 R L1 L2 Hp Hp2 E. pose proof (id_below P n p R Hp) as Hlt. pose proof (later_next P n n1 R L1) as Hn.
  pose proof (later_reachable P n n1 R L1) as R1.
  destruct (same_peer P n1 n2 p2 R1 L2 Hp2 ltac:(lia)) as (p1 & Hp1 & E1 & K1 & _).
  destruct (same_peer P n n1 p1 R L1 Hp1 ltac:(lia)) as (p0 & Hp0 & E0 & K0 & _).
  assert (X : p0 = p) by (apply (ids_inj n); [exact (wf_ids _ (i_wf _ _ (i_0 _ _ (reachable_inv P n R)))) | assumption | assumption | congruence]).
  subst p0. split; [congruence|]. exists p1. split; [exact Hp1 | congruence].
Qed.

(** ** C30: packets and their peers *)
Lemma nstep_rx : forall P ev fl n n' t o pid, nstep P ev fl n n' -> n_out n' = (t, o) :: n_out n ->
  o = OSeen pid \/ (exists sid src, o = ODeliver pid sid src) -> f_rx fl pid = true.
Proof.
  intros P ev fl n n' t o pid H E Ho.
  destruct H; outcbn; try (exfalso; exact (cons_self _ _ _ E)); try (injection E as _ E; subst o; destruct Ho as [Ho | (sid0 & src0 & Ho)]; try discriminate).
  - subst o0. contradiction.
  - subst o0. contradiction.
  - injection Ho as <- _ _. assumption.
  - injection Ho as <-. assumption.
  - destruct (is_established p); [|exfalso; exact (cons_self _ _ _ E)]. injection E as _ E. subst o. destruct Ho as [Ho | (sid0 & src0 & Ho)]; discriminate.
Qed.
Lemma steps_rx : forall P ev fl n n' t o pid, steps P ev fl n n' -> newly n n' t o ->
  o = OSeen pid \/ (exists sid src, o = ODeliver pid sid src) -> f_rx fl pid = true.
Proof.
  intros P ev fl n n' t o pid S Hn Ho. destruct (steps_new _ _ _ _ _ _ _ S Hn) as (m1 & m2 & _ & Hs & _ & Eo & _). eapply nstep_rx; eassumption.
Qed.
Lemma to_rx : forall P ev fl n n' t o pid, to P ev fl n n' -> f_rx fl pid = false -> newly n n' t o ->
  o = OSeen pid \/ (exists sid src, o = ODeliver pid sid src) -> False.
Proof. intros P ev fl n n' t o pid [[S _] _] E Hn Ho. pose proof (steps_rx _ _ _ _ _ _ _ _ S Hn Ho). congruence. Qed.
Lemma to_out : forall P ev fl n n', to P ev fl n n' -> exists l, n_out n' = l ++ n_out n.
Proof. intros P ev fl n n' [[S _] _]. eapply out_steps. exact S. Qed.
Lemma received_by : forall P n dt ev n' t o pid, reachable P n -> handles P n dt ev n' -> newly n n' t o ->
  o = OSeen pid \/ (exists sid src, o = ODeliver pid sid src) ->
  exists sk la ra d pkt y p, ev = EvRecv sk la ra d /\ classify d = PData pkt y /\
    find_id (n_peers n) pid = Some p /\ is_established p = true /\ p_addr p = Some ra /\ p_laddr p = Some la.
Proof.
  intros P n dt ev n' t o pid R H Hn Ho. pose proof (handles_steps P n dt ev n' H (reachable_inv P n R)) as [I1 T].
  change (newly (tick dt n) n' t o) in Hn.
  assert (Hfx : forall sk la ra d, ev = EvRecv sk la ra d -> receive P sk la ra d (tick dt n) = Ok (tt, n') ->
    exists pkt y p, classify d = PData pkt y /\ find_id (n_peers n) pid = Some p /\ is_established p = true /\ p_addr p = Some ra /\ p_laddr p = Some la).
  { intros sk la ra d Eev Hr. destruct (receive_to P ev sk la ra d tt (tick dt n) n' Eev Hr I1) as [V | (pid1 & p & pkt & y & T1 & X)].
    - exfalso. destruct V as [T1 | [(pid1 & m1 & m2 & m3 & T1 & T2 & T3 & T4 & _) | T1]]; [exact (to_rx _ _ _ _ _ _ _ _ T1 eq_refl Hn Ho)| | exact (to_rx _ _ _ _ _ _ _ _ (rsp_to _ _ _ _ T1 I1) eq_refl Hn Ho)].
      pose proof (to_out _ _ _ _ _ T1) as O1. pose proof (to_out _ _ _ _ _ T2) as O2. pose proof (to_out _ _ _ _ _ T3) as O3. pose proof (to_out _ _ _ _ _ T4) as O4.
      assert (O34 : exists l, n_out n' = l ++ n_out m2) by (destruct O3 as [l3 E3]; destruct O4 as [l4 E4]; exists (l4 ++ l3); rewrite E4, E3; apply app_assoc).
      assert (O234 : exists l, n_out n' = l ++ n_out m1) by (destruct O2 as [l2 E2]; destruct O34 as [l4 E4]; exists (l4 ++ l2); rewrite E4, E2; apply app_assoc).
      destruct (newly_trans _ _ _ _ _ O1 O234 Hn) as [N1 | N1]; [exact (to_rx _ _ _ _ _ _ _ _ T1 eq_refl N1 Ho)|].
      destruct (newly_trans _ _ _ _ _ O2 O34 N1) as [N2 | N2]; [exact (to_rx _ _ _ _ _ _ _ _ T2 eq_refl N2 Ho)|].
      destruct (newly_trans _ _ _ _ _ O3 O4 N2) as [N3 | N3]; [exact (to_rx _ _ _ _ _ _ _ _ T3 eq_refl N3 Ho) | exact (to_rx _ _ _ _ _ _ _ _ T4 eq_refl N3 Ho)].
    - pose proof (steps_rx _ _ _ _ _ _ _ _ (to_steps _ _ _ _ _ T1) Hn Ho) as E. cbn [f_rx fx] in E. apply N.eqb_eq in E. subst pid1. exists pkt, y, p. exact X. }
  destruct ev as [sk la ra d| | | | | | |]; try (exfalso; exact (to_rx _ _ _ _ _ _ _ _ T eq_refl Hn Ho)).
  - exists sk, la, ra, d. unfold handles, step in H. bind H as u m H1. apply modn_ok in H1. cbn [fst snd] in *. subst m.
    unfold handle in H. bind H as l m H1. apply gets_ok in H1. destruct H1 as [-> ->].
    assert (Hr : receive P sk la ra d (tick dt n) = Ok (tt, n')).
    { destruct sk as [s|o1 i]; [exact H|]. unfold when in H. destruct (sock_alive _ _); [exact H|]. exfalso. apply ret_ok in H. destruct H as [_ H]. subst n'.
      destruct Hn as (l & El & Hin). apply app_same in El. subst l. destruct Hin. }
    destruct (Hfx sk la ra d eq_refl Hr) as (pkt & y & p & X1 & X). exists pkt, y, p. split; [reflexivity | split; [exact X1 | exact X]].
Qed.
(** the peer an address belongs to *)
Lemma address_unique : forall P n p q a, reachable P n -> In p (n_peers n) -> In q (n_peers n) -> p_addr p = Some a -> p_addr q = Some a -> p = q.
Proof.
  intros P n p q a R Hp Hq Ep Eq. pose proof (i_wf _ _ (i_0 _ _ (reachable_inv P n R))) as W.
  apply (ids_inj n); [exact (wf_ids _ W) | exact Hp | exact Hq|]. exact (wf_addr _ W p q a Hp Hq Ep Eq).
Qed.

(** ** C26: connected peers have a session *)
Lemma connected_session : forall P n p, reachable P n -> In p (n_peers n) -> p_state p = Established ->
  exists s t, p_sess p = Some s /\ created (n_out n) t (p_id p) (p_key p) (ss_method s) (ss_id s).
Proof.
  intros P n p R Hp Es. pose proof (reachable_inv P n R) as I. pose proof (pi_est _ _ (i_pinv _ _ (i_0 _ _ I) p Hp)) as X.
  assert (He : is_established p = true) by (unfold is_established; rewrite Es; reflexivity).
  destruct (p_sess p) as [s|] eqn:E; [|exfalso; destruct (X Es) as [_ Y]; apply Y; reflexivity].
  pose proof (found_in n p (wf_ids _ (i_wf _ _ (i_0 _ _ I))) Hp) as Hf.
  destruct (si_made _ _ (reachable_sinv P n R) (p_id p) p false s Hf E) as (t & Hc & _). exists s, t. split; [reflexivity | exact Hc].
Qed.
