(** Handshake secrets in memory: consequences. *)
From Verif Require Import Base BufferModel BufferProofs MethodModel KexModel KexSpec EphemeralModel EphemeralSpec EphemeralProofs.
From Coq Require Import Sorting.Sorted.
Local Open Scope Z_scope.

Section E.
Variable K : kex.
Variable own : keypair.
Variable peers : N -> peerkey K.

Lemma eph_safe l : proper peers l -> exists s tr, krun K own (kstart K) l = Ok (s, tr).
Proof. intros P. destruct (run_proper K own peers l P) as (s & tr & _ & _ & E & _). eauto. Qed.

Lemma eph_use l s tr : proper peers l -> krun K own (kstart K) l = Ok (s, tr) ->
  forall tr1 e tr2, tr = tr1 ++ e :: tr2 -> allowed K own peers (created tr1) e.
Proof.
  intros P E tr1 e tr2 Et. destruct (run_proper K own peers l P) as (s' & tr' & now & ids & E' & _ & T).
  rewrite E in E'. injection E' as <- <-. apply (trace_ok_at K own peers tr tr1 e tr2 T Et).
Qed.

Lemma eph_memory l s tr : proper peers l -> krun K own (kstart K) l = Ok (s, tr) ->
  match k_keys s with
  | None => created tr = []
  | Some _ => ephemerals s = rev (map kp_secret (firstn 2 (map snd (created tr) ++ [no_pair; no_pair])))
  end.
Proof.
  intros P E. destruct (run_proper K own peers l P) as (s' & tr' & now & ids & E' & I & _).
  rewrite E in E'. injection E' as <- <-. pose proof (i_keys _ _ _ _ _ _ _ I) as H. unfold ephemerals.
  destruct (k_keys s) as [[prev cur]|]; [|tauto]. destruct H as [[_ Hp] [_ Hc]].
  destruct (created tr) as [|[t k] [|[t' k'] c]]; cbn [tl map snd app firstn rev] in *.
  - destruct Hp as [-> _], Hc as [-> _]. reflexivity.
  - destruct Hp as [-> _], Hc as [-> _]. reflexivity.
  - destruct Hp as [-> _], Hc as [-> _]. reflexivity.
Qed.

Lemma eph_cache l s tr : proper peers l -> krun K own (kstart K) l = Ok (s, tr) ->
  forall pid sigma shared, cached s pid = Some (sigma, shared) ->
    (sigma = zero32 /\ shared = zero32) \/
    exists t k hk, In (t, k) (created tr) /\ make_shared K false own k (peers pid) hk = Some (sigma, shared).
Proof.
  intros P E pid sigma shared C. destruct (run_proper K own peers l P) as (s' & tr' & now & ids & E' & I & _).
  rewrite E in E'. injection E' as <- <-. unfold cached in C.
  destruct (find_pp K (k_peers s) pid) as [p|] eqn:F; [|discriminate]. injection C as <- <-.
  destruct (i_peers _ _ _ _ _ _ _ I pid p F) as [_ [_ [(_ & H1 & H2) | (k & [_ (t & Hk)] & M)]]]; [left; auto|right].
  exists t, k, (pp_hk p). split; [|exact M]. apply in_rev. apply nth_error_In with (1 := Hk).
Qed.

(** ** The cache is cleared *)

Lemma est_not now pid ini h hk sigma salt e p p' ev :
  establish K now pid ini h hk sigma salt e p = (p', ev) ->
  forall t i ini' k hk' sg sa, In (Established t i ini' k hk' sg sa) ev -> i = pid /\ ini' = ini.
Proof.
  intros E t i ini' k hk' sg sa H. unfold establish in E. destruct (_ <=? _)%N; [injection E as <- <-; destruct H|].
  destruct e; injection E as <- <-; try (destruct H; fail). destruct H as [H|[]]. injection H as <- <- <-. auto.
Qed.

Lemma maintenance_no_est now r s prev cur s' ev : maintenance K now r s = Ok (prev, cur, s', ev) ->
  forall t i ini k hk sg sa, ~ In (Established t i ini k hk sg sa) ev.
Proof.
  unfold maintenance. destruct (keys_of K now s) as [a b]. destruct (timed_out _ _).
  - destruct (new_handshake_key K r); cbn [bind]; try discriminate. intros E. injection E as <- <- <- <-.
    intros t i ini k hk sg sa [H|[]]. discriminate.
  - intros E. injection E as <- <- <- <-. intros t i ini k hk sg sa [].
Qed.

Lemma respond_no_est now late cur pid p hk s s' ev : respond K own now late cur pid p hk s = (s', ev) ->
  forall t i ini k hk' sg sa, ~ In (Established t i ini k hk' sg sa) ev.
Proof.
  unfold respond. intros E t i ini k hk' sg sa H. destruct (update_shared K own cur p hk); injection E as <- <-.
  - destruct H as [H|[]]. discriminate.
  - destruct H.
Qed.

Lemma eph_cleared s o s' ev : kstep K own s o = Ok (s', ev) ->
  forall t pid k hk sigma salt, In (Established t pid false k hk sigma salt) ev ->
    cached s' pid = Some (zero32, zero32).
Proof.
  intros E t pid k hk sigma salt H. destruct o as [t0 r|t0 r h|t0 i b|t0 i key dyn|t0 i|t0 i]; cbn [kstep] in E.
  - destruct (maintenance K t0 r s) as [[[[prev cur] s1] e1]| | |] eqn:M; cbn [bind] in E; try discriminate.
    injection E as <- <-. apply in_app_or in H as [H|[H|[]]]; [|discriminate].
    exfalso. exact (maintenance_no_est _ _ _ _ _ _ _ M _ _ _ _ _ _ _ H).
  - unfold handshake_handle in E.
    destruct (maintenance K t0 r s) as [[[[prev cur] s1] e1]| | |] eqn:M; cbn [bind] in E; try discriminate.
    pose proof (maintenance_no_est _ _ _ _ _ _ _ M) as Nm.
    assert (N : Ok (s1, e1) = Ok (s', ev) -> cached s' pid = Some (zero32, zero32)).
    { intros X. injection X as <- <-. exfalso. exact (Nm _ _ _ _ _ _ _ H). }
    destruct (hp_peer h) as [i|]; [|exact (N E)].
    destruct (find_pp K (k_peers s1) i) as [p|] eqn:F; [|exact (N E)].
    destruct (negb (timed_out t0 (pp_eh_to p))); [exact (N E)|].
    destruct (hp_verified h) as [[|]|]; [|exact (N E)|].
    2: { injection E as <- <-. exfalso. exact (Nm _ _ _ _ _ _ _ H). }
    destruct (N.eqb (hp_type h) 1).
    + destruct (hp_limited h); [exact (N E)|].
      destruct (respond K own t0 false cur i p (hp_hk h) s1) as [s2 e2] eqn:R. injection E as <- <-.
      exfalso. apply in_app_or in H as [H|H]; [exact (Nm _ _ _ _ _ _ _ H)|].
      exact (respond_no_est _ _ _ _ _ _ _ _ _ R _ _ _ _ _ _ _ H).
    + destruct (choose t0 prev cur (hp_rhk h)) as [kk|]; [|exact (N E)].
      destruct (N.eqb (hp_type h) 2).
      * destruct (finish K own t0 i kk h p s1) as [s2 e2] eqn:R. injection E as <- <-.
        exfalso. apply in_app_or in H as [H|H]; [exact (Nm _ _ _ _ _ _ _ H)|].
        unfold finish in R. destruct (negb (hp_method h)); [injection R as <- <-; destruct H|].
        destruct (make_shared K true own (hk_pair kk) (pp_key p) (hp_hk h)) as [[sg sh]|]; [|injection R as <- <-; destruct H].
        destruct (hp_mac h sh).
        -- destruct (establish K t0 i true kk (hp_hk h) sg sh (hp_est h) p) as [p' e3] eqn:Ee. injection R as <- <-.
           destruct H as [H|H]; [discriminate|]. destruct (est_not _ _ _ _ _ _ _ _ _ _ _ Ee _ _ _ _ _ _ _ H) as [_ X]. discriminate.
        -- injection R as <- <-. destruct H as [H|[]]. discriminate.
      * destruct (N.eqb (hp_type h) 3); [|exact (N E)].
        destruct (handle_finish K own t0 i kk h p s1) as [s2 e2] eqn:R. injection E as <- <-.
        apply in_app_or in H as [H|H]; [exfalso; exact (Nm _ _ _ _ _ _ _ H)|].
        unfold handle_finish in R. destruct (negb (hp_method h)); [injection R as <- <-; destruct H|].
        destruct (update_shared K own kk p (hp_hk h)) as [p1|]; [|injection R as <- <-; destruct H].
        destruct (hp_mac h (pp_shared p1)).
        -- destruct (establish K t0 i false kk (hp_hk h) (pp_sigma p1) (pp_shared p1) (hp_est h) p1) as [p' e3] eqn:Ee.
           injection R as <- <-. destruct H as [H|H]; [discriminate|].
           destruct (est_not _ _ _ _ _ _ _ _ _ _ _ Ee _ _ _ _ _ _ _ H) as [-> _].
           unfold cached, set_pp. cbn [k_peers]. rewrite (find_put_same K _ _ _ p F). reflexivity.
        -- injection R as <- <-. destruct H as [H|[]]. discriminate.
  - destruct (existsb _ _); [|injection E as <- <-; destruct H].
    destruct (find_pp K (k_peers s) i) as [p|]; [|injection E as <- <-; destruct H].
    destruct (k_keys s) as [[prev cur]|]; [|injection E as <- <-; destruct H].
    injection E as E. exfalso. exact (respond_no_est _ _ _ _ _ _ _ _ _ E _ _ _ _ _ _ _ H).
  - destruct (find_pp K (k_peers s) i); [discriminate|]. destruct (keys_of K t0 s). injection E as <- <-. destruct H.
  - injection E as <- <-. destruct H.
  - injection E as <- <-. destruct H.
Qed.

(** ** Only handshakes change the keys *)

Lemma respond_keys now late cur pid p hk s s' ev : respond K own now late cur pid p hk s = (s', ev) -> k_keys s' = k_keys s.
Proof. unfold respond. destruct (update_shared K own cur p hk); intros E; injection E as <- <-; reflexivity. Qed.

Lemma eph_kept_step s o s' ev : handshakes o = false -> k_keys s <> None -> kstep K own s o = Ok (s', ev) -> k_keys s' = k_keys s.
Proof.
  intros Hh Hk E. destruct o as [t r|t r h|t i b|t i key dyn|t i|t i]; try discriminate; cbn [kstep] in E.
  - destruct (existsb _ _); [|now injection E as <- <-].
    destruct (find_pp K (k_peers s) i) as [p|]; [|now injection E as <- <-].
    destruct (k_keys s) as [[prev cur]|] eqn:Ek; [|congruence].
    injection E as E. apply respond_keys in E. congruence.
  - destruct (find_pp K (k_peers s) i); [discriminate|]. unfold keys_of in E.
    destruct (k_keys s) as [[prev cur]|] eqn:Ek; [|congruence]. injection E as <- <-. reflexivity.
  - injection E as <- <-. reflexivity.
  - injection E as <- <-. reflexivity.
Qed.

Lemma eph_kept l : forall s s' tr, Forall (fun o => handshakes o = false) l -> k_keys s <> None ->
  krun K own s l = Ok (s', tr) -> ephemerals s' = ephemerals s.
Proof.
  enough (H : forall s s' tr, Forall (fun o => handshakes o = false) l -> k_keys s <> None ->
            krun K own s l = Ok (s', tr) -> k_keys s' = k_keys s).
  { intros s s' tr F N E. unfold ephemerals. rewrite (H s s' tr F N E). reflexivity. }
  induction l as [|o l IH]; intros s s' tr F N E; cbn [krun] in E.
  - injection E as <- <-. reflexivity.
  - inversion F as [|? ? F1 F2]; subst.
    destruct (kstep K own s o) as [[s1 e1]| | |] eqn:E1; cbn [bind] in E; try discriminate.
    destruct (krun K own s1 l) as [[s2 e2]| | |] eqn:E2; cbn [bind] in E; try discriminate.
    injection E as <- <-. pose proof (eph_kept_step _ _ _ _ F1 N E1) as Q. rewrite <- Q in N |- *.
    exact (IH s1 s2 e2 F2 N E2).
Qed.

(** ** Old keys are forgotten *)

Lemma maintenance_keys now r s prev cur s' ev : maintenance K now r s = Ok (prev, cur, s', ev) ->
  k_keys s' = Some (prev, cur) /\ now < hk_preferred cur.
Proof.
  unfold maintenance. destruct (keys_of K now s) as [a b]. unfold timed_out.
  destruct (Z.leb_spec (hk_preferred b) now) as [L|L].
  - destruct (new_handshake_key K r); cbn [bind]; try discriminate. intros E. injection E as <- <- <- <-.
    cbn [k_keys hk_preferred]. split; [reflexivity|lia].
  - intros E. injection E as <- <- <- <-. cbn [k_keys]. auto.
Qed.

Lemma handshake_keys s o s' ev : handshakes o = true -> kstep K own s o = Ok (s', ev) ->
  exists prev cur, k_keys s' = Some (prev, cur) /\ time_of o < hk_preferred cur.
Proof.
  intros Hh E. destruct o as [t r|t r h|t i b|t i key dyn|t i|t i]; try discriminate; cbn [kstep time_of] in *.
  - destruct (maintenance K t r s) as [[[[prev cur] s1] e1]| | |] eqn:M; cbn [bind] in E; try discriminate.
    injection E as <- <-. exists prev, cur. exact (maintenance_keys _ _ _ _ _ _ _ M).
  - unfold handshake_handle in E.
    destruct (maintenance K t r s) as [[[[prev cur] s1] e1]| | |] eqn:M; cbn [bind] in E; try discriminate.
    destruct (maintenance_keys _ _ _ _ _ _ _ M) as [Mk Mp]. exists prev, cur. split; [|exact Mp]. rewrite <- Mk.
    assert (N : Ok (s1, e1) = Ok (s', ev) -> k_keys s' = k_keys s1) by (intros X; injection X as <- <-; reflexivity).
    destruct (hp_peer h) as [i|]; [|exact (N E)].
    destruct (find_pp K (k_peers s1) i) as [p|]; [|exact (N E)].
    destruct (negb (timed_out t (pp_eh_to p))); [exact (N E)|].
    destruct (hp_verified h) as [[|]|]; [|exact (N E)|injection E as <- <-; reflexivity].
    destruct (N.eqb (hp_type h) 1).
    + destruct (hp_limited h); [exact (N E)|].
      destruct (respond K own t false cur i p (hp_hk h) s1) as [s2 e2] eqn:R. injection E as <- <-.
      exact (respond_keys _ _ _ _ _ _ _ _ _ R).
    + destruct (choose t prev cur (hp_rhk h)) as [kk|]; [|exact (N E)].
      destruct (N.eqb (hp_type h) 2).
      * destruct (finish K own t i kk h p s1) as [s2 e2] eqn:R. injection E as <- <-.
        unfold finish in R. destruct (negb (hp_method h)); [now injection R as <- <-|].
        destruct (make_shared K true own (hk_pair kk) (pp_key p) (hp_hk h)) as [[sg sh]|]; [|now injection R as <- <-].
        destruct (hp_mac h sh); [|now injection R as <- <-].
        destruct (establish K t i true kk (hp_hk h) sg sh (hp_est h) p) as [p' e3]. now injection R as <- <-.
      * destruct (N.eqb (hp_type h) 3); [|exact (N E)].
        destruct (handle_finish K own t i kk h p s1) as [s2 e2] eqn:R. injection E as <- <-.
        unfold handle_finish in R. destruct (negb (hp_method h)); [now injection R as <- <-|].
        destruct (update_shared K own kk p (hp_hk h)) as [p1|]; [|now injection R as <- <-].
        destruct (hp_mac h (pp_shared p1)); [|now injection R as <- <-].
        destruct (establish K t i false kk (hp_hk h) (pp_sigma p1) (pp_shared p1) (hp_est h) p1) as [p' e3].
        now injection R as <- <-.
Qed.

Definition later (a b : Z * keypair) : Prop := fst b < fst a.

Lemma trace_sorted tr : forall c, StronglySorted later c -> trace_ok K own peers c tr -> StronglySorted later (created tr ++ c).
Proof.
  induction tr as [|e tr IH]; intros c Hs H; [exact Hs|]. cbn [trace_ok] in H. destruct H as [A H].
  change (e :: tr) with ([e] ++ tr). rewrite created_app, <- app_assoc. apply IH; [|exact H].
  destruct e; try exact Hs. cbn [created flat_map rev app allowed] in *. constructor; [exact Hs|].
  destruct c as [|[t' k'] c]; [constructor|]. inversion Hs as [|? ? Hs' F]; subst.
  constructor; [unfold later; cbn [fst]; lia|]. eapply Forall_impl; [|exact F].
  unfold later. cbn [fst]. intros a Ha. lia.
Qed.

Lemma krun_app l1 : forall l2 s s' tr, krun K own s (l1 ++ l2) = Ok (s', tr) ->
  exists s1 tr1 tr2, krun K own s l1 = Ok (s1, tr1) /\ krun K own s1 l2 = Ok (s', tr2) /\ tr = tr1 ++ tr2.
Proof.
  induction l1 as [|o l1 IH]; intros l2 s s' tr E.
  - exists s, [], tr. auto.
  - cbn [app krun] in *. destruct (kstep K own s o) as [[a e1]| | |]; cbn [bind] in *; try discriminate.
    destruct (krun K own a (l1 ++ l2)) as [[b e2]| | |] eqn:E2; cbn [bind] in E; try discriminate.
    injection E as <- <-. destruct (IH l2 a b e2 E2) as (s1 & tr1 & tr2 & A & B & ->).
    rewrite A. cbn [bind]. exists s1, (e1 ++ tr1), tr2. split; [reflexivity|]. split; [exact B|]. apply app_assoc.
Qed.

Lemma clock_app (l1 : list (kop K)) : forall l2 t, clock t (l1 ++ l2) -> clock t l1 /\ exists t', clock t' l2.
Proof.
  induction l1 as [|o l1 IH]; intros l2 t H; cbn [app clock] in *; [eauto|].
  destruct H as [H1 H2]. apply IH in H2 as [H2 H3]. auto.
Qed.

Lemma proper_app l1 l2 : proper peers (l1 ++ l2) -> proper peers l1.
Proof.
  intros (C & R & A & D). apply clock_app in C as [C _]. apply Forall_app in R as [R _]. apply Forall_app in A as [A _].
  unfold added in D. rewrite flat_map_app in D.
  refine (conj C (conj R (conj A _))). clear -D. unfold added.
  induction (flat_map (fun o => match o with KAdd _ pid _ _ => [pid] | _ => [] end) l1) as [|x r IH]; [constructor|].
  cbn [app] in D. inversion D as [|? ? N D']; subst. constructor; [|auto]. intros H. apply N, in_or_app. auto.
Qed.

(** After a handshake the newest key is younger than 15 seconds. *)
Lemma after_handshake l o s tr : proper peers (l ++ [o]) -> handshakes o = true ->
  krun K own (kstart K) (l ++ [o]) = Ok (s, tr) ->
  exists t k r, created tr = (t, k) :: r /\ time_of o - 15000 < t <= time_of o.
Proof.
  intros P Hh E. destruct (run_proper K own peers _ P) as (s' & tr' & now & ids & E' & I & _).
  rewrite E in E'. injection E' as <- <-.
  destruct (krun_app _ _ _ _ _ E) as (s1 & tr1 & tr2 & E1 & E2 & ->). cbn [krun] in E2.
  destruct (kstep K own s1 o) as [[s2 ev]| | |] eqn:Es; cbn [bind] in E2; try discriminate.
  injection E2 as <- <-. destruct (handshake_keys _ _ _ _ Hh Es) as (prev & cur & Ek & Hp).
  (* the time of the state is that of the last operation *)
  assert (Hnow : exists now' ids', inv K own peers now' ids' (created (tr1 ++ ev ++ [])) s2 /\ now' = time_of o).
  { pose proof P as (C & R & A & D). pose proof (proper_app _ _ P) as P1.
    destruct (run_ok K own peers l 0 [] [] (kstart K) (start_inv K own peers)) as (sa & ta & na & ia & Ea & Ia & Ta);
      try apply P1; [auto|].
    rewrite E1 in Ea. injection Ea as <- <-. rewrite app_nil_r in Ia.
    pose proof (i_now _ _ _ _ _ _ _ Ia) as Na.
    (* the clock: the state's time may be chosen as the time of the operation *)
    clear -K own peers P E1 Es. revert E1 Es. revert P.
    intros P E1 Es. exists (time_of o).
    assert (G : forall l (s : kst K) c now ids s1 tr1 o s2 ev,
      inv K own peers now ids c s -> clock now (l ++ [o]) -> Forall random_ok (l ++ [o]) -> Forall (keys_agree peers) (l ++ [o]) ->
      NoDup (added (l ++ [o])) -> (forall i, In i (added (l ++ [o])) -> ~ In i ids) ->
      krun K own s l = Ok (s1, tr1) -> kstep K own s1 o = Ok (s2, ev) ->
      exists ids', inv K own peers (time_of o) ids' (created ev ++ created tr1 ++ c) s2).
    { clear. induction l as [|x l IH]; intros s c now ids s1 tr1 o s2 ev I C R A D Fr E1 E2.
      - cbn [app krun] in *. injection E1 as <- <-. cbn [clock] in C. inversion R; subst. inversion A; subst.
        destruct (step_ok K own peers o now ids c s I (proj1 C)) as (s' & ev' & E' & I' & _); auto.
        rewrite E2 in E'. injection E' as <- <-. eauto.
      - cbn [app krun clock] in *. destruct C as [C1 C2]. inversion R as [|? ? R1 R2]; subst. inversion A as [|? ? A1 A2]; subst.
        assert (Ea : added (x :: l ++ [o]) = ids_of K x ++ added (l ++ [o])).
        { unfold ids_of, added. cbn [flat_map]. rewrite app_nil_r. reflexivity. }
        rewrite Ea in D, Fr.
        destruct (step_ok K own peers x now ids c s I C1 R1 A1) as (sa & eva & Ex & Ia & _).
        { intros i Hi. apply Fr, in_or_app. auto. }
        rewrite Ex in E1. cbn [bind] in E1.
        destruct (krun K own sa l) as [[sb evb]| | |] eqn:Eb; cbn [bind] in E1; try discriminate.
        injection E1 as <- <-.
        destruct (IH sa (created eva ++ c) (time_of x) (ids_of K x ++ ids) sb evb o s2 ev Ia C2 R2 A2) as (ids' & I'); auto.
        { clear -D. induction (ids_of K x) as [|y r IHr]; [exact D|]. cbn [app] in D. inversion D; auto. }
        { intros i Hi Hin. apply in_app_or in Hin as [Hin|Hin].
          - destruct x as [| | |t pid key dyn| |]; cbn [ids_of added flat_map app] in Hin; try (destruct Hin; fail).
            destruct Hin as [<-|[]]. cbn [ids_of added flat_map app] in D. inversion D as [|? ? N _]. exact (N Hi).
          - apply (Fr i); [apply in_or_app; auto|exact Hin]. }
        exists ids'. rewrite created_app, <- app_assoc. exact I'. }
    destruct P as (C & R & A & D).
    destruct (G l (kstart K) [] 0 [] s1 tr1 o s2 ev (start_inv K own peers) C R A D) as (ids' & I'); auto.
    exists ids'. split; [|reflexivity]. rewrite app_nil_r in *. rewrite created_app. exact I'. }
  destruct Hnow as (now' & ids' & I' & ->). pose proof (i_keys _ _ _ _ _ _ _ I') as Hk. rewrite Ek in Hk.
  destruct Hk as [_ [_ Hc]]. pose proof (i_past _ _ _ _ _ _ _ I') as Hpast.
  destruct (created (tr1 ++ ev ++ [])) as [|[t k] r]; [lia|].
  exists t, k, r. split; [reflexivity|]. specialize (Hpast t k (or_introl eq_refl)). lia.
Qed.

Lemma eph_forgotten l1 o1 l2 o2 l3 s tr :
  proper peers (l1 ++ [o1] ++ l2 ++ [o2] ++ l3) -> handshakes o1 = true -> handshakes o2 = true ->
  time_of o1 + 15000 <= time_of o2 ->
  krun K own (kstart K) (l1 ++ [o1] ++ l2 ++ [o2] ++ l3) = Ok (s, tr) ->
  forall x, In x (ephemerals s) ->
    exists t k, In (t, k) (created tr) /\ x = kp_secret k /\ time_of o1 - 15000 < t.
Proof.
  intros P H1 H2 Ht E x Hx.
  pose proof (eph_memory _ _ _ P E) as Hm.
  destruct (run_proper K own peers _ P) as (s' & tr' & now & ids & E' & I & T).
  rewrite E in E'. injection E' as <- <-.
  pose proof (trace_sorted tr [] (SSorted_nil _) T) as Hs. rewrite app_nil_r in Hs.
  pose proof P as P0. pose proof E as E0.
  rewrite app_assoc in P0, E0. 
  destruct (krun_app _ _ _ _ _ E0) as (s1 & tr1 & tra & Ea & Eb & ->).
  destruct (after_handshake l1 o1 s1 tr1 (proper_app _ _ P0) H1 Ea) as (t1 & k1 & r1 & C1 & B1).
  assert (Q : (l1 ++ [o1]) ++ l2 ++ [o2] ++ l3 = ((l1 ++ [o1] ++ l2) ++ [o2]) ++ l3) by (rewrite <- !app_assoc; reflexivity).
  rewrite Q in P0, E0.
  destruct (krun_app _ _ _ _ _ E0) as (s2 & tr2 & trb & Ec & Ed & Etr).
  destruct (after_handshake _ o2 s2 tr2 (proper_app _ _ P0) H2 Ec) as (t2 & k2 & r2 & C2 & B2).
  (* the newest two are not older than (t1, k1) *)
  assert (L : exists x1, created (tr1 ++ tra) = x1 ++ created tr1) by (exists (created tra); apply created_app).
  assert (L2 : exists x2, created (tr1 ++ tra) = x2 ++ created tr2) by (exists (created trb); rewrite Etr; apply created_app).
  destruct L as (x1 & L). destruct L2 as (x2 & L2). rewrite C1 in L. rewrite C2 in L2.
  set (c := created (tr1 ++ tra)) in *.
  assert (N1 : x1 <> []).
  { intros ->. cbn [app] in L. rewrite L in L2. destruct x2 as [|y x2]; cbn [app] in L2.
    - injection L2 as X _ _. lia.
    - injection L2 as <- Hr. rewrite L in Hs. inversion Hs as [|? ? _ F]; subst.
      rewrite Forall_forall in F. specialize (F (t2, k2)). unfold later in F. cbn [fst] in F.
      assert (In (t2, k2) (x2 ++ (t2, k2) :: r2)) by (apply in_or_app; right; now left).
      specialize (F H). lia. }
  destruct (k_keys s) as [[prev cur]|] eqn:Ek; [|rewrite Hm in L; destruct x1; discriminate].
  rewrite Hm in Hx. apply in_rev in Hx. apply in_map_iff in Hx as (k & <- & Hk).
  assert (F2 : forall t q, In (t, q) (firstn 2 c) -> t1 <= t).
  { intros t q Hin. destruct x1 as [|a [|b x1]]; [congruence| |].
    - rewrite L in Hin, Hs. cbn [app firstn] in Hin, Hs. inversion Hs as [|? ? _ F]; subst.
      destruct Hin as [->|[Hin|[]]].
      + rewrite Forall_forall in F. specialize (F (t1, k1) (or_introl eq_refl)). unfold later in F. cbn [fst] in F. lia.
      + injection Hin as <- <-. lia.
    - rewrite L in Hin, Hs. cbn [app firstn] in Hin, Hs. inversion Hs as [|? ? Hs' F]; subst. inversion Hs' as [|? ? _ F']; subst.
      assert (M : In (t1, k1) (x1 ++ (t1, k1) :: r1)) by (apply in_or_app; right; now left).
      rewrite Forall_forall in F, F'. unfold later in F, F'. destruct Hin as [->|[->|[]]].
      + specialize (F (t1, k1) (or_intror M)). cbn [fst] in F. lia.
      + specialize (F' (t1, k1) M). cbn [fst] in F'. lia. }
  assert (Hlen : (2 <= length c)%nat). { rewrite L, app_length. cbn [length]. destruct x1; [congruence|cbn [length]; lia]. }
  rewrite firstn_app, map_length in Hk. replace (2 - length c)%nat with 0%nat in Hk by lia.
  rewrite firstn_O, app_nil_r in Hk. rewrite firstn_map in Hk. apply in_map_iff in Hk as ([t q] & Eq & Hin).
  cbn [snd] in Eq. subst q. exists t, k. split; [|split; [reflexivity|]].
  - rewrite <- (firstn_skipn 2 c). apply in_or_app. now left.
  - specialize (F2 t k Hin). lia.
Qed.
End E.
