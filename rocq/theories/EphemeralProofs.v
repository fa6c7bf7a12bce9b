(** Handshake secrets in memory: proofs. *)
From Verif Require Import Base BufferModel BufferProofs MethodModel MethodProofs KexModel KexSpec KexProofs EphemeralModel EphemeralSpec.
Local Open Scope Z_scope.

Lemma new_key_ok (K : kex) r : word256 r -> exists k, new_handshake_key K r = Ok k.
Proof.
  intros W. destruct (sanitize_spec r W) as [E W']. pose proof (eph_mod r) as M. rewrite <- E in M.
  destruct (divided _ W' M) as (s & D & _). unfold new_handshake_key. rewrite D. eexists. reflexivity.
Qed.

Lemma created_app a b : created (a ++ b) = created b ++ created a.
Proof. unfold created. rewrite flat_map_app, rev_app_distr. reflexivity. Qed.

Section E.
Variable K : kex.
Variable own : keypair.
Variable peers : N -> peerkey K.

(** ** Traces *)

Fixpoint trace_ok (c : list (Z * keypair)) (tr : list kev) : Prop :=
  match tr with
  | [] => True
  | e :: r => allowed K own peers c e /\ trace_ok (created [e] ++ c) r
  end.

Lemma trace_ok_app a : forall c b, trace_ok c (a ++ b) <-> trace_ok c a /\ trace_ok (created a ++ c) b.
Proof.
  induction a as [|e a IH]; intros c b; cbn [app trace_ok]; [tauto|].
  rewrite IH. change (e :: a) with ([e] ++ a). rewrite (created_app [e] a), <- app_assoc. tauto.
Qed.

Lemma trace_ok_at tr tr1 e tr2 : trace_ok [] tr -> tr = tr1 ++ e :: tr2 -> allowed K own peers (created tr1) e.
Proof.
  intros H ->. apply trace_ok_app in H as [_ H]. cbn [trace_ok] in H. rewrite app_nil_r in H. tauto.
Qed.

(** ** The invariant *)

Definition is_key (now : Z) (c : list (Z * keypair)) (h : hkey) : Prop :=
  hk_serial h = N.of_nat (length c) /\
  match c with
  | [] => hk_pair h = no_pair /\ hk_valid h = 0 /\ hk_preferred h <= now
  | (t, k) :: _ => hk_pair h = k /\ hk_preferred h = t + 15000 /\ hk_valid h = t + 30000
  end.

Definition pair_at (c : list (Z * keypair)) (n : N) (k : keypair) : Prop :=
  (0 < n)%N /\ exists t, nth_error (rev c) (N.to_nat n - 1) = Some (t, k).

Definition cache_ok (c : list (Z * keypair)) (pid : N) (p : pproto K) : Prop :=
  pp_key p = peers pid /\
  ((pp_hs p = 0%N /\ pp_sigma p = zero32 /\ pp_shared p = zero32) \/
   exists k, pair_at c (pp_hs p) k /\
     make_shared K false own k (peers pid) (pp_hk p) = Some (pp_sigma p, pp_shared p)).

Record inv (now : Z) (ids : list N) (c : list (Z * keypair)) (s : kst K) : Prop := {
  i_now : 0 <= now;
  i_keys : match k_keys s with
           | None => c = [] /\ k_peers s = []
           | Some (prev, cur) => is_key now (tl c) prev /\ is_key now c cur
           end;
  i_past : forall t k, In (t, k) c -> 0 <= t <= now;
  i_peers : forall pid p, find_pp K (k_peers s) pid = Some p -> In pid ids /\ cache_ok c pid p;
  i_ver : c = [] -> k_verifying s = []
}.

Lemma pair_at_app c x n k : pair_at c n k -> pair_at (x ++ c) n k.
Proof.
  intros [Hn (t & E)]. split; [exact Hn|]. exists t. rewrite rev_app_distr.
  rewrite nth_error_app1; [exact E|]. apply nth_error_Some. congruence.
Qed.

Lemma cache_ok_app c x pid p : cache_ok c pid p -> cache_ok (x ++ c) pid p.
Proof.
  intros [Hk H]. split; [exact Hk|]. destruct H as [H | (k & H1 & H2)]; [left; exact H|right].
  exists k. split; [now apply pair_at_app|exact H2].
Qed.

Lemma find_put l i j (p q : pproto K) : find_pp K (put_pp K l i p) j = Some q ->
  (i = j /\ q = p) \/ (i <> j /\ find_pp K l j = Some q).
Proof.
  induction l as [|[a x] l IH]; intros H; [discriminate|]. cbn [put_pp] in H.
  destruct (N.eqb_spec i a) as [<-|Ha].
  - cbn [find_pp] in *. destruct (N.eqb_spec j i) as [->|Hj].
    + left. split; [reflexivity|congruence].
    + right. split; [congruence|exact H].
  - cbn [find_pp] in *. destruct (N.eqb_spec j a) as [->|Hj].
    + right. split; [congruence|exact H].
    + apply IH, H.
Qed.

Lemma find_put_same l i (p q : pproto K) : find_pp K l i = Some q -> find_pp K (put_pp K l i p) i = Some p.
Proof.
  induction l as [|[a x] l IH]; intros H; [discriminate|]. cbn [put_pp find_pp] in *.
  destruct (N.eqb_spec i a) as [<-|Ha]; cbn [find_pp].
  - rewrite N.eqb_refl. reflexivity.
  - destruct (N.eqb_spec i a); [contradiction|]. apply IH, H.
Qed.

Lemma find_del l i j (q : pproto K) : find_pp K (del_pp K l i) j = Some q -> find_pp K l j = Some q.
Proof.
  unfold del_pp. induction l as [|[a x] l IH]; intros H; [discriminate|]. cbn [filter] in H.
  destruct (N.eqb_spec i a) as [<-|Ha]; cbn [negb] in H.
  - cbn [find_pp]. destruct (N.eqb_spec j i) as [->|Hj]; [|apply IH, H].
    exfalso. clear IH. revert H. induction l as [|[b y] l IH]; intros H; [discriminate|]. cbn [filter] in H.
    destruct (N.eqb_spec i b) as [<-|Hb]; cbn [negb] in H; [now apply IH|].
    cbn [find_pp] in H. destruct (N.eqb_spec i b); [contradiction|]. now apply IH.
  - cbn [find_pp] in *. destruct (N.eqb_spec j a); [exact H|apply IH, H].
Qed.

Lemma is_key_later now now' c h : now <= now' -> is_key now c h -> is_key now' c h.
Proof.
  intros Hn [E H]. split; [exact E|]. destruct c as [|[t k] c]; [|exact H].
  destruct H as (H1 & H2 & H3). repeat split; auto; lia.
Qed.

Lemma inv_later now now' ids c s : now <= now' -> inv now ids c s -> inv now' ids c s.
Proof.
  intros Hn [H1 H2 H3 H4 H5]. constructor; auto; [lia| |].
  - destruct (k_keys s) as [[prev cur]|]; [|exact H2]. destruct H2 as [A B].
    split; eapply is_key_later; eauto.
  - intros t k Hin. specialize (H3 t k Hin). lia.
Qed.

Lemma keys_inv now ids c s prev cur : inv now ids c s -> keys_of K now s = (prev, cur) ->
  is_key now (tl c) prev /\ is_key now c cur.
Proof.
  intros I E. pose proof (i_keys _ _ _ _ I) as H. unfold keys_of in E.
  destruct (k_keys s) as [[a b]|].
  - injection E as <- <-. exact H.
  - destruct H as [-> _]. injection E as <- <-.
    cbn [tl]. unfold is_key. cbn [first_key hk_serial hk_pair hk_valid hk_preferred length].
    repeat split; auto; lia.
Qed.

(** ** Maintenance *)

Lemma maintenance_ok now r ids c s : inv now ids c s -> word256 r ->
  exists prev cur s' ev, maintenance K now r s = Ok (prev, cur, s', ev) /\
    inv now ids (created ev ++ c) s' /\ trace_ok c ev /\
    k_peers s' = k_peers s /\ k_verifying s' = k_verifying s /\
    k_keys s' = Some (prev, cur) /\
    is_key now (tl (created ev ++ c)) prev /\ is_key now (created ev ++ c) cur /\
    (exists t, hd_error (created ev ++ c) = Some (t, hk_pair cur) /\ t <= now < t + 15000) /\
    ((exists k, ev = [Created now k]) \/ ev = []).
Proof.
  intros I W. unfold maintenance. destruct (keys_of K now s) as [prev cur] eqn:E.
  destruct (keys_inv _ _ _ _ _ _ I E) as [Hp Hc].
  pose proof (i_now _ _ _ _ I) as Hn.
  unfold timed_out. destruct (Z.leb_spec (hk_preferred cur) now) as [T|T].
  - destruct (new_key_ok K r W) as (k & Ek). rewrite Ek. cbn [bind].
    set (nk := mk_hkey (hk_serial cur + 1) (now + 15000) (now + 30000) k).
    exists cur, nk, (mk_kst (Some (cur, nk)) (k_peers s) (k_verifying s)), [Created now k].
    change (created [Created now k] ++ c) with ((now, k) :: c). cbn [tl].
    assert (Hk : is_key now ((now, k) :: c) nk).
    { unfold is_key, nk. cbn [hk_serial hk_pair hk_valid hk_preferred length].
      split; [rewrite (proj1 Hc); lia|auto]. }
    split; [reflexivity|]. split.
    { constructor; cbn [k_keys k_peers k_verifying]; auto.
      - intros t q [Hin|Hin]; [injection Hin as <- <-; lia|]. apply (i_past _ _ _ _ I t q Hin).
      - intros pid p F. destruct (i_peers _ _ _ _ I pid p F) as [A B]. split; [exact A|].
        apply (cache_ok_app c [(now, k)]), B.
      - discriminate. }
    split.
    { cbn [trace_ok allowed]. split; [|exact Logic.I]. destruct c as [|[t q] c]; [exact Logic.I|].
      destruct Hc as [_ (_ & Hpref & _)]. lia. }
    repeat (split; [reflexivity|]). split; [exact Hc|]. split; [exact Hk|].
    split; [exists now; split; [reflexivity|lia]|]. left. exists k. reflexivity.
  - exists prev, cur, (mk_kst (Some (prev, cur)) (k_peers s) (k_verifying s)), [].
    change (created [] ++ c) with c.
    split; [reflexivity|]. split.
    { destruct I as [I1 I2 I3 I4 I5]. constructor; cbn [k_keys k_peers k_verifying]; auto. }
    split; [exact Logic.I|]. repeat (split; [reflexivity|]). split; [exact Hp|]. split; [exact Hc|].
    split; [|right; reflexivity].
    destruct c as [|[t k] c].
    + destruct Hc as [_ (_ & _ & Hpref)]. lia.
    + pose proof (i_past _ _ _ _ I t k (or_introl eq_refl)) as P.
      destruct Hc as [_ (H1 & H2 & _)]. exists t. cbn [hd_error]. rewrite H1. split; [reflexivity|lia].
Qed.

(** ** Using a key *)

Lemma key_pair_at now c h : is_key now c h -> c <> [] -> pair_at c (hk_serial h) (hk_pair h).
Proof.
  intros [Es H] Hc. destruct c as [|[t k] c]; [congruence|]. destruct H as [-> _]. rewrite Es.
  split; [cbn [length]; lia|]. exists t. cbn [rev length].
  rewrite nth_error_app2; rewrite rev_length; [|lia].
  replace (N.to_nat (N.of_nat (S (length c))) - 1 - length c)%nat with 0%nat by lia. reflexivity.
Qed.

Lemma pair_at_tl c n k : pair_at (tl c) n k -> pair_at c n k.
Proof. destruct c as [|x c]; [auto|]. intros H. apply (pair_at_app c [x]), H. Qed.

Lemma pair_at_fun c n k k' : pair_at c n k -> pair_at c n k' -> k = k'.
Proof. intros [_ (t & E)] [_ (t' & E')]. congruence. Qed.

Lemma choose_ok now ids c s prev cur rhk h :
  inv now ids c s -> is_key now (tl c) prev -> is_key now c cur -> choose now prev cur rhk = Some h ->
  pair_at c (hk_serial h) (hk_pair h) /\
  exists t, In (t, hk_pair h) (firstn 2 c) /\ t <= now < t + 30000.
Proof.
  intros I Hp Hc E. pose proof (i_now _ _ _ _ I) as Hn. unfold choose, timed_out in E.
  destruct (negb (hk_valid cur <=? now) && bytes_eqb (kp_public (hk_pair cur)) rhk) eqn:E1.
  - injection E as <-. apply andb_true_iff in E1 as [E1 _]. apply negb_true_iff, Z.leb_gt in E1.
    destruct c as [|[t k] c]; [destruct Hc as [_ (_ & V & _)]; lia|].
    split; [apply (key_pair_at now); [exact Hc|discriminate]|].
    destruct Hc as [_ (-> & _ & V)]. exists t. pose proof (i_past _ _ _ _ I t k (or_introl eq_refl)).
    split; [now left|lia].
  - destruct (negb (hk_valid prev <=? now) && bytes_eqb (kp_public (hk_pair prev)) rhk) eqn:E2; [|discriminate].
    injection E as <-. apply andb_true_iff in E2 as [E2 _]. apply negb_true_iff, Z.leb_gt in E2.
    destruct c as [|x [|[t k] c]]; cbn [tl] in Hp; try (destruct Hp as [_ (_ & V & _)]; lia).
    split; [apply pair_at_tl; cbn [tl]; apply (key_pair_at now); [exact Hp|discriminate]|].
    destruct Hp as [_ (-> & _ & V)]. exists t.
    pose proof (i_past _ _ _ _ I t k (or_intror (or_introl eq_refl))). split; [right; now left|lia].
Qed.

Lemma update_ok c pid h p hk p' : cache_ok c pid p -> pair_at c (hk_serial h) (hk_pair h) ->
  update_shared K own h p hk = Some p' ->
  cache_ok c pid p' /\ pp_last p' = pp_last p /\ pp_eh_to p' = pp_eh_to p /\
  make_shared K false own (hk_pair h) (peers pid) hk = Some (pp_sigma p', pp_shared p').
Proof.
  intros [Hk Hc] Hp E. unfold update_shared in E.
  destruct (N.eqb (pp_hs p) (hk_serial h) && bytes_eqb (pp_hk p) hk) eqn:Eb.
  - injection E as <-. apply andb_true_iff in Eb as [E1 E2]. apply N.eqb_eq in E1. apply bytes_eqb_eq in E2.
    destruct Hc as [[H0 _] | (k & H1 & H2)].
    + destruct Hp as [Hp _]. lia.
    + assert (k = hk_pair h). { apply (pair_at_fun c (hk_serial h)); [rewrite <- E1; exact H1|exact Hp]. }
      subst k. rewrite E2 in H2. repeat split; auto. right. exists (hk_pair h).
      rewrite E2. split; [exact H1|exact H2].
  - destruct (make_shared K false own (hk_pair h) (pp_key p) hk) as [[sigma shared]|] eqn:M; [|discriminate].
    injection E as <-. cbn [pp_key pp_last pp_eh_to pp_hs pp_hk pp_sigma pp_shared]. rewrite Hk in M.
    split; [|repeat split; exact M]. split; [exact Hk|]. right. exists (hk_pair h). cbn [pp_hs pp_hk pp_sigma pp_shared].
    split; [exact Hp|exact M].
Qed.

Lemma establish_ok now pid ini h hk sigma salt e p p' ev c :
  establish K now pid ini h hk sigma salt e p = (p', ev) ->
  (exists t, In (t, hk_pair h) (firstn 2 c) /\ t <= now < t + 30000) ->
  make_shared K ini own (hk_pair h) (peers pid) hk = Some (sigma, salt) ->
  trace_ok c ev /\ created ev = [] /\ pp_key p' = pp_key p /\ pp_hs p' = pp_hs p /\ pp_hk p' = pp_hk p /\
  pp_sigma p' = pp_sigma p /\ pp_shared p' = pp_shared p.
Proof.
  intros E Ht M. unfold establish in E. destruct (hk_serial h <=? pp_last p)%N.
  - injection E as <- <-. cbn [trace_ok]. auto 10.
  - destruct e; injection E as <- <-; cbn [trace_ok allowed pp_key pp_hs pp_hk pp_sigma pp_shared]; auto 10.
Qed.

Lemma inv_put now ids c s pid p p0 :
  inv now ids c s -> find_pp K (k_peers s) pid = Some p0 -> cache_ok c pid p -> inv now ids c (set_pp K s pid p).
Proof.
  intros I F H. pose proof (proj1 (i_peers _ _ _ _ I _ _ F)) as Hin.
  constructor; cbn [set_pp k_keys k_peers k_verifying]; try apply I.
  - pose proof (i_keys _ _ _ _ I) as Hk. destruct (k_keys s) as [[a b]|]; [exact Hk|].
    destruct Hk as [-> Hp]. rewrite Hp in F. discriminate.
  - intros j q Fq. apply find_put in Fq as [[<- ->] | [_ Fq]]; [auto|]. apply (i_peers _ _ _ _ I _ _ Fq).
Qed.

Lemma respond_ok now late ids c s cur pid p hk s' ev :
  inv now ids c s -> find_pp K (k_peers s) pid = Some p -> pair_at c (hk_serial cur) (hk_pair cur) ->
  allowed K own peers c (Responded now pid late (hk_pair cur) hk) ->
  respond K own now late cur pid p hk s = (s', ev) ->
  inv now ids c s' /\ trace_ok c ev /\ created ev = [].
Proof.
  intros I F Hp A E. unfold respond in E.
  destruct (update_shared K own cur p hk) as [p'|] eqn:U; injection E as <- <-.
  - destruct (update_ok c pid cur p hk p' (proj2 (i_peers _ _ _ _ I _ _ F)) Hp U) as [C _].
    split; [apply (inv_put now ids c s pid p' p I F C)|]. cbn [trace_ok]. auto.
  - cbn [trace_ok]. auto.
Qed.

Lemma finish_ok now ids c s pid p h k s' ev :
  inv now ids c s -> find_pp K (k_peers s) pid = Some p ->
  pair_at c (hk_serial k) (hk_pair k) -> (exists t, In (t, hk_pair k) (firstn 2 c) /\ t <= now < t + 30000) ->
  finish K own now pid k h p s = (s', ev) ->
  inv now ids c s' /\ trace_ok c ev /\ created ev = [].
Proof.
  intros I F Hp Ht E. unfold finish in E.
  destruct (negb (hp_method h)); [injection E as <- <-; cbn [trace_ok]; auto|].
  pose proof (proj2 (i_peers _ _ _ _ I _ _ F)) as C. pose proof (proj1 C) as Ck.
  destruct (make_shared K true own (hk_pair k) (pp_key p) (hp_hk h)) as [[sigma shared]|] eqn:M;
    [|injection E as <- <-; cbn [trace_ok]; auto].
  rewrite Ck in M.
  destruct (hp_mac h shared).
  - destruct (establish K now pid true k (hp_hk h) sigma shared (hp_est h) p) as [p' ev'] eqn:Ee.
    injection E as <- <-.
    destruct (establish_ok _ _ _ _ _ _ _ _ _ _ _ c Ee Ht M) as (T & Cr & Q1 & Q2 & Q3 & Q4 & Q5).
    split; [|split].
    + apply (inv_put now ids c s pid p' p I F). destruct C as [_ C]. split; [congruence|].
      rewrite Q2, Q3, Q4, Q5. exact C.
    + cbn [trace_ok allowed created flat_map rev app]. split; [exact Ht|exact T].
    + change (created (Used now pid (hk_pair k) (hp_hk h) :: ev')) with (created ([Used now pid (hk_pair k) (hp_hk h)] ++ ev')).
      rewrite created_app, Cr. reflexivity.
  - injection E as <- <-. cbn [trace_ok allowed]. auto.
Qed.

Lemma handle_finish_ok now ids c s pid p h k s' ev :
  inv now ids c s -> find_pp K (k_peers s) pid = Some p ->
  pair_at c (hk_serial k) (hk_pair k) -> (exists t, In (t, hk_pair k) (firstn 2 c) /\ t <= now < t + 30000) ->
  handle_finish K own now pid k h p s = (s', ev) ->
  inv now ids c s' /\ trace_ok c ev /\ created ev = [].
Proof.
  intros I F Hp Ht E. unfold handle_finish in E.
  destruct (negb (hp_method h)); [injection E as <- <-; cbn [trace_ok]; auto|].
  pose proof (proj2 (i_peers _ _ _ _ I _ _ F)) as C.
  destruct (update_shared K own k p (hp_hk h)) as [p1|] eqn:U;
    [|injection E as <- <-; cbn [trace_ok]; auto].
  destruct (update_ok c pid k p (hp_hk h) p1 C Hp U) as (C1 & _ & _ & M).
  destruct (hp_mac h (pp_shared p1)).
  - destruct (establish K now pid false k (hp_hk h) (pp_sigma p1) (pp_shared p1) (hp_est h) p1) as [p' ev'] eqn:Ee.
    injection E as <- <-.
    destruct (establish_ok _ _ _ _ _ _ _ _ _ _ _ c Ee Ht M) as (T & Cr & Q1 & Q2 & Q3 & Q4 & Q5).
    split; [|split].
    + apply (inv_put now ids c s pid (clear_shared K p') p I F). destruct C1 as [Ck _].
      split; [cbn [clear_shared pp_key]; congruence|]. left. auto.
    + cbn [trace_ok allowed created flat_map rev app]. split; [exact Ht|exact T].
    + change (created (Used now pid (hk_pair k) (hp_hk h) :: ev')) with (created ([Used now pid (hk_pair k) (hp_hk h)] ++ ev')).
      rewrite created_app, Cr. reflexivity.
  - injection E as <- <-. split; [apply (inv_put now ids c s pid p1 p I F C1)|].
    cbn [trace_ok allowed]. auto.
Qed.

(** ** Steps *)

Lemma handle_ok now r h ids c s : inv now ids c s -> word256 r ->
  exists s' ev, handshake_handle K own now r h s = Ok (s', ev) /\
    inv now ids (created ev ++ c) s' /\ trace_ok c ev.
Proof.
  intros I W. unfold handshake_handle.
  destruct (maintenance_ok now r ids c s I W) as (prev & cur & s1 & ev & E & I1 & T & _ & _ & _ & Hp & Hc & Hcur & _).
  rewrite E. cbn [bind].
  assert (Hne : created ev ++ c <> []). { intros Q. rewrite Q in Hcur. destruct Hcur as (t & X & _). discriminate. }
  set (c1 := created ev ++ c) in *.
  assert (B : forall s2 ev2, inv now ids c1 s2 /\ trace_ok c1 ev2 /\ created ev2 = [] ->
              inv now ids (created (ev ++ ev2) ++ c) s2 /\ trace_ok c (ev ++ ev2)).
  { intros s2 ev2 (A1 & A2 & A3). rewrite created_app, A3. cbn [app]. split; [exact A1|].
    apply trace_ok_app. auto. }
  destruct (hp_peer h) as [pid|]; [|eexists _, _; split; [reflexivity|auto]].
  destruct (find_pp K (k_peers s1) pid) as [p|] eqn:F; [|eexists _, _; split; [reflexivity|auto]].
  destruct (negb (timed_out now (pp_eh_to p))); [eexists _, _; split; [reflexivity|auto]|].
  destruct (hp_verified h) as [[|]|].
  - destruct (N.eqb (hp_type h) 1).
    + destruct (hp_limited h); [eexists _, _; split; [reflexivity|auto]|].
      destruct (respond K own now false cur pid p (hp_hk h) s1) as [s2 ev2] eqn:Er.
      eexists _, _. split; [reflexivity|]. apply B.
      refine (respond_ok now false ids c1 s1 cur pid p (hp_hk h) s2 ev2 I1 F _ _ Er).
      * apply (key_pair_at now); [exact Hc|exact Hne].
      * cbn [allowed]. exact Hcur.
    + destruct (choose now prev cur (hp_rhk h)) as [k|] eqn:Ch; [|eexists _, _; split; [reflexivity|auto]].
      destruct (choose_ok now ids c1 s1 prev cur (hp_rhk h) k I1 Hp Hc Ch) as [Hpa Ht].
      destruct (N.eqb (hp_type h) 2).
      * destruct (finish K own now pid k h p s1) as [s2 ev2] eqn:Er. eexists _, _. split; [reflexivity|].
        apply B. apply (finish_ok now ids c1 s1 pid p h k s2 ev2 I1 F Hpa Ht Er).
      * destruct (N.eqb (hp_type h) 3); [|eexists _, _; split; [reflexivity|auto]].
        destruct (handle_finish K own now pid k h p s1) as [s2 ev2] eqn:Er. eexists _, _. split; [reflexivity|].
        apply B. apply (handle_finish_ok now ids c1 s1 pid p h k s2 ev2 I1 F Hpa Ht Er).
  - eexists _, _. split; [reflexivity|auto].
  - eexists _, _. split; [reflexivity|]. split; [|exact T].
    destruct I1 as [J1 J2 J3 J4 J5]. constructor; cbn [k_keys k_peers k_verifying]; auto.
    intros Q. contradiction.
Qed.

Definition ids_of (o : kop K) : list N := added [o].

Lemma step_ok o now ids c s :
  inv now ids c s -> now <= time_of o -> random_ok o -> keys_agree peers o ->
  (forall i, In i (ids_of o) -> ~ In i ids) ->
  exists s' ev, kstep K own s o = Ok (s', ev) /\
    inv (time_of o) (ids_of o ++ ids) (created ev ++ c) s' /\ trace_ok c ev.
Proof.
  intros I0 Hn R A Fr. pose proof (inv_later _ _ _ _ _ Hn I0) as I. clear I0 Hn now.
  destruct o as [t r|t r h|t pid hk|t pid key dyn|t pid|t pid]; cbn [kstep time_of random_ok keys_agree] in *;
    cbn [ids_of added flat_map app] in *.
  - destruct (maintenance_ok t r ids c s I R) as (prev & cur & s1 & ev & E & I1 & T & _ & _ & _ & Hp & Hc & Hcur & _).
    rewrite E. cbn [bind]. eexists _, _. split; [reflexivity|].
    rewrite created_app. cbn [created flat_map rev app]. split; [exact I1|].
    apply trace_ok_app. split; [exact T|]. cbn [trace_ok allowed]. auto.
  - apply handle_ok; assumption.
  - destruct (existsb _ (k_verifying s)) eqn:Ex; [|eexists _, _; split; [reflexivity|cbn [trace_ok]; auto]].
    destruct (find_pp K (k_peers s) pid) as [p|] eqn:F; [|eexists _, _; split; [reflexivity|cbn [trace_ok]; auto]].
    destruct (k_keys s) as [[prev cur]|] eqn:Ek; [|eexists _, _; split; [reflexivity|cbn [trace_ok]; auto]].
    destruct (respond K own t true cur pid p hk s) as [s' ev] eqn:Er.
    eexists _, _. split; [reflexivity|].
    pose proof (i_keys _ _ _ _ I) as Hk. rewrite Ek in Hk. destruct Hk as [_ Hc].
    assert (Hne : c <> []). { intros Q. pose proof (i_ver _ _ _ _ I Q) as V. rewrite V in Ex. discriminate. }
    destruct (respond_ok t true ids c s cur pid p hk s' ev I F) as (B1 & B2 & B3); auto.
    + apply (key_pair_at t); assumption.
    + cbn [allowed]. destruct c as [|[t0 k0] c]; [congruence|]. exists t0. destruct Hc as [_ (-> & _)].
      pose proof (i_past _ _ _ _ I t0 k0 (or_introl eq_refl)). split; [reflexivity|lia].
    + rewrite B3. auto.
  - destruct (find_pp K (k_peers s) pid) as [p|] eqn:F.
    + exfalso. destruct (i_peers _ _ _ _ I _ _ F) as [Hin _]. exact (Fr pid (or_introl eq_refl) Hin).
    + destruct (keys_of K t s) as [prev cur] eqn:E. destruct (keys_inv _ _ _ _ _ _ I E) as [Hp Hc].
      eexists _, _. split; [reflexivity|]. split; [|exact Logic.I].
      constructor; cbn [k_keys k_peers k_verifying created flat_map rev app]; try apply I.
      * split; assumption.
      * intros j q Fq. cbn [find_pp] in Fq. destruct (N.eqb_spec j pid) as [->|Hj].
        -- injection Fq as <-. split; [now left|]. split; [exact A|]. left. auto.
        -- destruct (i_peers _ _ _ _ I _ _ Fq) as [B1 B2]. split; [now right|exact B2].
  - eexists _, _. split; [reflexivity|cbn [trace_ok]; auto].
  - eexists _, _. split; [reflexivity|]. split; [|exact Logic.I].
    constructor; cbn [k_keys k_peers k_verifying created flat_map rev app]; try apply I.
    + pose proof (i_keys _ _ _ _ I) as Hk. destruct (k_keys s) as [[a b]|]; [exact Hk|].
      destruct Hk as [-> Hq]. rewrite Hq. auto.
    + intros j q Fq. apply find_del in Fq. apply (i_peers _ _ _ _ I _ _ Fq).
Qed.

Lemma run_ok l : forall now ids c s,
  inv now ids c s -> clock now l -> Forall random_ok l -> Forall (keys_agree peers) l ->
  NoDup (added l) -> (forall i, In i (added l) -> ~ In i ids) ->
  exists s' tr now' ids', krun K own s l = Ok (s', tr) /\ inv now' ids' (created tr ++ c) s' /\ trace_ok c tr.
Proof.
  induction l as [|o l IH]; intros now ids c s I C R A D Fr.
  - exists s, [], now, ids. split; [reflexivity|]. split; [exact I|exact Logic.I].
  - cbn [clock] in C. destruct C as [C1 C2]. inversion R as [|? ? R1 R2]; subst. inversion A as [|? ? A1 A2]; subst.
    assert (Ea : added (o :: l) = ids_of o ++ added l).
    { unfold ids_of, added. cbn [flat_map]. rewrite app_nil_r. reflexivity. }
    rewrite Ea in D, Fr.
    destruct (step_ok o now ids c s I C1 R1 A1) as (s1 & ev & E & I1 & T1).
    { intros i Hi. apply Fr, in_or_app. auto. }
    destruct (IH (time_of o) (ids_of o ++ ids) (created ev ++ c) s1 I1 C2 R2 A2) as (s' & tr & now' & ids' & E' & I' & T').
    { clear -D. induction (ids_of o) as [|x r IHr]; [exact D|]. cbn [app] in D. inversion D; auto. }
    { intros i Hi Hin. apply in_app_or in Hin as [Hin|Hin].
      - destruct o as [| | |t pid key dyn| |]; cbn [ids_of added flat_map app] in Hin; try (destruct Hin; fail).
        destruct Hin as [<-|[]]. cbn [ids_of added flat_map app] in D. inversion D as [|? ? N _]. exact (N Hi).
      - apply (Fr i); [apply in_or_app; auto|exact Hin]. }
    cbn [krun]. rewrite E. cbn [bind]. rewrite E'. cbn [bind].
    exists s', (ev ++ tr), now', ids'. split; [reflexivity|]. rewrite created_app, <- app_assoc.
    split; [exact I'|]. apply trace_ok_app. auto.
Qed.

Lemma start_inv : inv 0 [] [] (kstart K).
Proof. constructor; cbn [kstart k_keys k_peers k_verifying]; auto; [lia|intros t k H; destruct H|intros pid p H; discriminate H]. Qed.

Lemma run_proper l : proper peers l ->
  exists s tr now ids, krun K own (kstart K) l = Ok (s, tr) /\ inv now ids (created tr) s /\ trace_ok [] tr.
Proof.
  intros (C & R & A & D).
  destruct (run_ok l 0 [] [] (kstart K) start_inv C R A D) as (s & tr & now & ids & E & I & T); [auto|].
  rewrite app_nil_r in I. exists s, tr, now, ids. auto.
Qed.
End E.
