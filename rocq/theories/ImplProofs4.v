(** Proofs about the memory of sessions: histories *)
From Verif Require Import Base BufferModel MethodModel NameModel NameSpec NameProofs ImplModel ImplSpec ImplProofs ImplProofs2 ImplProofs3.
From Coq Require Import Permutation String.
Notation length := List.length.

Section histories.
  Variable X : chosen.
  Variable U : impl -> Prop.
  Variable ms : list (provider * method).
  Hypothesis GOOD : forall p m, In (p, m) ms -> method_good X U p m.
  Notation World := (World U ms).
  Notation Inv := (Inv U ms).
  Notation owners_but l i := (owners (others l i)).

  Lemma shape_cur : forall h O x, World h (OSlot x :: O) -> sl_method x = None \/ exists k, sl_method x = Some k /\ k < length ms.
  Proof.
    intros h O x W. destruct (slot_shape U ms _ _ _ W) as [[N _]|[(k & -> & L)|(k & q & ->)]]; [now left|right; cbn; eauto|].
    right. exists k. split; [reflexivity|]. destruct (slot_open U ms _ _ _ _ W) as (p & m & parts & F & _). apply nth_error_Some. congruence.
  Qed.

  Lemma supersede_ok : forall s i p k a, Inv s -> find_peer (s_peers s) i = Some p ->
    exists h' p', supersede_session i k a s = Ok (set_peer i p' (set_heap h' s)) /\ p_cell p' = p_cell p /\ full (p_old p') /\
      (sl_method (p_cur p') = None \/ exists j, sl_method (p_cur p') = Some j /\ j < length ms) /\
      World h' (OCell (p_cell p) :: OSlot (p_old p') :: owners_but (s_peers s) i).
  Proof.
    intros s i p k a V F. pose proof (Inv_open U ms s i p V F) as W. destruct V as (R & ND & W0 & FU).
    pose proof (full_find _ _ _ FU F) as FO. unfold supersede_session. rewrite F. set (O := owners_but _ i) in *. unfold mine in W.
    assert (Wo : World (s_heap s) (OSlot (p_old p) :: OSlot (p_cur p) :: OCell (p_cell p) :: O)).
    { eapply World_perm; [|exact W]. etransitivity; [apply perm_swap|]. apply perm_skip, perm_swap. }
    assert (Wc : World (s_heap s) (OSlot (p_cur p) :: OSlot (p_old p) :: OCell (p_cell p) :: O)) by (eapply World_perm; [|exact Wo]; apply perm_swap).
    pose proof (shape_cur _ _ _ Wc) as SH.
    destruct (slot_valid_ok U ms s _ _ (a_cur a) R Wc) as (vc & E1 & C1). rewrite E1. cbn [bind].
    assert (E2 : exists vo, (if vc then slot_valid s (p_old p) (a_old a) else Ok false) = Ok vo).
    { destruct vc; [|now exists false]. destruct (slot_valid_ok U ms s _ _ (a_old a) R Wo) as (vo & E & _). now exists vo. }
    destruct E2 as (vo & E2). rewrite E2. cbn [bind].
    (* the first two cases end alike *)
    assert (T : forall h1 p1, World h1 (OSlot (p_old p1) :: OCell (p_cell p) :: O) -> full (p_old p1) -> p_cell p1 = p_cell p ->
       (sl_method (p_cur p1) = None \/ exists j, sl_method (p_cur p1) = Some j /\ j < length ms) ->
       exists h' p', match sl_method (p_old p1) with
         | None => Ok (set_peer i p1 (set_heap h1 s))
         | Some j => if negb (Nat.eqb j k) then do s0 <- slot_free (p_old p1) (set_heap h1 s); Ok (set_peer i (mk_pst (p_cell p1) no_slot (p_cur p1)) s0)
                     else do _ <- slot_touch (set_heap h1 s) (p_old p1); Ok (set_peer i p1 (set_heap h1 s))
         end = Ok (set_peer i p' (set_heap h' s)) /\ p_cell p' = p_cell p /\ full (p_old p') /\
         (sl_method (p_cur p') = None \/ exists j, sl_method (p_cur p') = Some j /\ j < length ms) /\ World h' (OCell (p_cell p) :: OSlot (p_old p') :: O)).
    { intros h1 p1 W1 F1 C S1. destruct (sl_method (p_old p1)) as [j|] eqn:Ej.
      - destruct (Nat.eqb j k) eqn:Ek; cbn [negb].
        + destruct F1 as [F1|F1]; [congruence|]. destruct (p_old p1) as [mo so] eqn:Eo. cbn in Ej, F1. subst mo. destruct so as [q|]; [|congruence].
          rewrite (slot_touch_ok U ms (set_heap h1 s) _ j q R W1). cbn [bind]. exists h1, p1. split; [reflexivity|]. split; [exact C|]. rewrite Eo. split; [right; discriminate|].
          split; [exact S1|]. eapply World_perm; [|exact W1]. apply perm_swap.
        + destruct (slot_free_ok U ms (set_heap h1 s) _ _ j R W1 Ej) as (h2 & E & W2). rewrite E. cbn [bind].
          exists h2. eexists. split; [reflexivity|]. cbn [p_cell p_old p_cur]. split; [exact C|]. split; [now left|]. split; [exact S1|].
          eapply World_perm; [apply perm_swap|]. now apply none_slot.
      - exists h1, p1. split; [reflexivity|]. split; [exact C|]. split; [exact F1|]. split; [exact S1|]. eapply World_perm; [|exact W1]. apply perm_swap. }
    destruct (vc && negb vo) eqn:EV.
    - apply andb_prop in EV. destruct EV as [-> _]. destruct (C1 eq_refl) as (kc & qc & Ec).
      destruct (slot_clear U ms s _ _ R Wo) as (h1 & E3 & W1). unfold reset_session in E3. rewrite E3. cbn [bind].
      apply (T h1 (mk_pst (p_cell p) (p_cur p) (p_cur p))); cbn [p_old p_cell p_cur]; [exact W1| |reflexivity|exact SH]. rewrite Ec. right. discriminate.
    - destruct (slot_clear U ms s _ _ R Wc) as (h1 & E3 & W1). unfold reset_session in E3. rewrite E3. cbn [bind].
      apply (T h1 p); [exact W1|exact FO|reflexivity|exact SH].
  Qed.

  Lemma nth_GOOD : forall k, k < length ms -> exists p m, nth_error ms k = Some (p, m) /\ method_good X U p m.
  Proof.
    intros k L. destruct (nth_error ms k) as [[p m]|] eqn:E; [|apply nth_error_None in E; lia]. exists p, m. split; [reflexivity|]. apply GOOD. eapply nth_error_In; eauto.
  Qed.
  Lemma blocks_enough : forall n d, n <= length (fit (32 * (if Nat.eqb (blocks n) 0 then 1 else blocks n)) d).
  Proof.
    intros n d. rewrite fit_length. unfold blocks. pose proof (Nat.div_mod (n + 31) 32 ltac:(lia)). pose proof (Nat.mod_upper_bound (n + 31) 32 ltac:(lia)).
    destruct (Nat.eqb_spec ((n + 31) / 32) 0); lia.
  Qed.
  Lemma fit_prefix : forall n k d, k <= n -> k <= length d -> firstn k (fit n d) = firstn k d.
  Proof. intros n k d L1 L2. unfold fit. rewrite firstn_firstn, Nat.min_l by exact L1. rewrite firstn_app. replace (k - length d) with 0 by lia. cbn. apply app_nil_r. Qed.

  (** the session that was made *)
  Definition keyed (h : heap) (k : nat) (secret : bytes) (H : option bytes) (q : nat) : Prop :=
    exists p m, nth_error ms k = Some (p, m) /\ sess_ok h q p (parts_of h q) /\ Forall (part_ok U h) (parts_of h q) /\
      map (fun x => str (algorithm (fst x))) (parts_of h q) = algorithms m /\
      (key_length p m <= length secret -> flat_map (key_in h) (filter derived (parts_of h q)) = firstn (key_length p m) secret) /\
      (forall x, In x (parts_of h q) -> derived x = false -> exists H0, H = Some H0 /\ key_in h x = block H0).

  Lemma new_ok : forall s i p k secret H a, Inv s -> find_peer (s_peers s) i = Some p -> k < length ms ->
    (exists s', new_session X i k secret H a s = Ok (s', false) /\ Inv s' /\ map fst (s_peers s') = map fst (s_peers s) /\ H = None) \/
    (exists s' old q, new_session X i k secret H a s = Ok (s', true) /\ Inv s' /\ map fst (s_peers s') = map fst (s_peers s) /\
       find_peer (s_peers s') i = Some (mk_pst (p_cell p) old (mk_slot (Some k) (Some q))) /\ keyed (s_heap s') k secret H q).
  Proof.
    intros s i p k secret H a V F L. destruct (supersede_ok s i p k a V F) as (h1 & p1 & E1 & C & F1 & SH & W1).
    destruct (nth_GOOD k L) as (pr & m & N & G). unfold new_session. rewrite E1. cbn [bind]. set (s1 := set_peer i p1 (set_heap h1 s)) in *.
    assert (R1 : ready ms s1) by apply V. rewrite (get_method_ok ms s1 k pr m R1 N). cbn [bind fst snd].
    set (sec := fit _ secret). assert (LS : key_length pr m <= length sec) by apply blocks_enough.
    change (s_heap s1) with h1. 
    assert (F2 : find_peer (s_peers s1) i = Some p1) by (unfold s1; eapply find_set; cbn; exact F).
    destruct (session_init_ok X U ms h1 _ pr m sec H W1 G LS) as [(h2 & E2 & W2 & HN)|(h2 & q & parts & E2 & W2 & L2 & A & K & KH)]; rewrite E2; cbn [bind]; change (s_peers (set_heap h2 s1)) with (s_peers s1).
    - rewrite F2. left. eexists. split; [reflexivity|]. split; [|split; [|exact HN]].
      + change (set_heap h2 s1) with (set_peer i p1 (set_heap h2 s)). rewrite set_set. eapply Inv_close; [exact V|exact F|exact F1|].
        unfold mine. cbn [p_cell p_old p_cur]. rewrite C.
        assert (W3 : World h2 (OSlot (mk_slot (sl_method (p_cur p1)) None) :: OCell (p_cell p) :: OSlot (p_old p1) :: owners_but (s_peers s) i)).
        { destruct SH as [SH|(j & SH & Lj)]; rewrite SH; [apply none_slot; exact W2|apply (none_slot' U ms _ _ j); [exact Lj|exact W2]]. }
        eapply World_perm; [|exact W3]. etransitivity; [apply perm_swap|]. apply perm_skip, perm_swap.
      + cbn. rewrite !set_ids. reflexivity.
    - rewrite F2. right. eexists. exists (p_old p1), q. split; [reflexivity|]. 
      change (set_heap h2 s1) with (set_peer i p1 (set_heap h2 s)). rewrite set_set.
      pose proof (World_ok U ms _ _ _ W2 (or_introl eq_refl)) as SO.
      assert (PO : parts_of h2 q = parts) by (unfold parts_of; cbn in SO; unfold sess_ok in SO; now rewrite SO).
      split; [|split; [|split]].
      + eapply Inv_close; [exact V|exact F|exact F1|]. unfold mine. cbn [p_cell p_old p_cur]. rewrite C. eapply World_perm; [|eapply slot_close; [exact N|exact L2|exact W2]].
        etransitivity; [apply perm_swap|]. apply perm_skip, perm_swap.
      + cbn. apply set_ids.
      + rewrite <- C. eapply find_set. cbn. exact F.
      + exists pr, m. cbn [s_heap set_peer set_heap]. rewrite PO. split; [exact N|]. split; [exact SO|]. split; [|split; [exact A|split; [|exact KH]]].
        * rewrite Forall_forall. intros x I. apply (World_ok U ms _ _ (OPart x) W2). right. apply in_or_app. left. now apply in_map.
        * intros Q. rewrite K. unfold sec. apply fit_prefix; [|exact Q]. unfold sec in LS. rewrite fit_length in LS. exact LS.
  Qed.

  Lemma establish_ok : forall s i k secret H up init a, Inv s -> In i (map fst (s_peers s)) -> k < length ms ->
    exists s', establish X i k secret H up init a s = Ok s' /\ Inv s' /\ map fst (s_peers s') = map fst (s_peers s) /\
      ((H <> None -> up = true -> exists p q, find_peer (s_peers s') i = Some p /\ p_cur p = mk_slot (Some k) (Some q) /\ keyed (s_heap s') k secret H q)).
  Proof.
    intros s i k secret H up init a V I L. destruct (find_some _ _ I) as [p F]. unfold establish.
    destruct (new_ok s i p k secret H a V F L) as [(s1 & E & V1 & P1 & HN)|(s1 & old & q & E & V1 & P1 & F1 & K)]; rewrite E; cbn [bind negb].
    - destruct (reset_ok U ms s1 i V1) as (s2 & E2 & V2 & P2 & _). exists s2. split; [exact E2|]. split; [exact V2|]. split; [congruence|]. congruence.
    - destruct up; cbn [negb].
      2:{ destruct (reset_ok U ms s1 i V1) as (s2 & E2 & V2 & P2 & _). exists s2. split; [exact E2|]. split; [exact V2|]. split; [congruence|]. discriminate. }
      exists s1. split; [|split; [exact V1|split; [exact P1|]]].
      + destruct init; [reflexivity|]. rewrite F1. cbn [p_cur].
        pose proof (Inv_open U ms s1 i _ V1 F1) as W. unfold mine in W. cbn [p_cell p_old p_cur] in W.
        rewrite (slot_use_ok U ms s1 (OCell (p_cell p) :: OSlot old :: owners_but (s_peers s1) i) k q); [reflexivity|apply V1|]. eapply World_perm; [|exact W].
        etransitivity; [apply perm_skip, perm_swap|]. apply perm_swap.
      + intros _ _. eexists. exists q. split; [exact F1|]. split; [reflexivity|exact K].
  Qed.

  Lemma open_cur : forall s i p, Inv s -> find_peer (s_peers s) i = Some p -> World (s_heap s) (OSlot (p_cur p) :: OSlot (p_old p) :: OCell (p_cell p) :: owners_but (s_peers s) i).
  Proof.
    intros s i p V F. eapply World_perm; [|exact (Inv_open U ms s i p V F)]. unfold mine. etransitivity; [apply perm_skip, perm_swap|]. etransitivity; [apply perm_swap|]. apply perm_skip, perm_swap.
  Qed.
  Lemma open_old : forall s i p, Inv s -> find_peer (s_peers s) i = Some p -> World (s_heap s) (OSlot (p_old p) :: OSlot (p_cur p) :: OCell (p_cell p) :: owners_but (s_peers s) i).
  Proof. intros s i p V F. eapply World_perm; [|exact (open_cur s i p V F)]. apply perm_swap. Qed.

  Lemma same_heap : forall s, set_heap (s_heap s) s = s.
  Proof. intros [h p m]. reflexivity. Qed.
  Lemma set_find : forall l i p, find_peer l i = Some p -> NoDup (map fst l) -> map (fun x : N * pst => if N.eqb i (fst x) then (i, p) else x) l = l.
  Proof.
    induction l as [|[j p0] l IH]; intros i p F ND; [reflexivity|]. cbn in F. inversion ND as [|? ? N1 N2]; subst. cbn [map fst].
    destruct (N.eqb_spec i j) as [E|E].
    - injection F as <-. subst j. f_equal. now apply map_absent.
    - f_equal. now apply IH.
  Qed.

  Lemma recv_ok : forall s i a, Inv s -> exists s', recv i a s = Ok s' /\ Inv s' /\ map fst (s_peers s') = map fst (s_peers s).
  Proof.
    intros s i a V. unfold recv. destruct (find_peer (s_peers s) i) as [p|] eqn:F; [|now exists s].
    pose proof (open_cur s i p V F) as Wc. pose proof (open_old s i p V F) as Wo. assert (R : ready ms s) by apply V.
    destruct (slot_valid_ok U ms s _ _ (a_cur a) R Wc) as (v & E1 & C1). rewrite E1. cbn [bind].
    destruct v; cbn [negb].
    2:{ destruct (reset_ok U ms s i V) as (s2 & E2 & V2 & P2 & _). now exists s2. }
    destruct (C1 eq_refl) as (kc & qc & Ec).
    destruct (slot_valid_ok U ms s _ _ (a_old a) R Wo) as (vo & E2 & C2). rewrite E2. cbn [bind].
    assert (E3 : exists g, (if vo then do _ <- slot_use s (p_old p); Ok (a_dec_old a) else Ok false) = Ok g).
    { destruct vo; [|now exists false]. destruct (C2 eq_refl) as (ko & qo & Eo). rewrite Eo in Wo |- *. rewrite (slot_use_ok U ms s _ ko qo R Wo). cbn. eauto. }
    destruct E3 as (g & E3). rewrite E3. cbn [bind]. destruct g; [now exists s|].
    assert (E4 : slot_use s (p_cur p) = Ok tt) by (rewrite Ec in Wc |- *; exact (slot_use_ok U ms s _ kc qc R Wc)).
    rewrite E4. cbn [bind]. destruct (a_dec_cur a); cbn [negb]; [|now exists s].
    assert (T : exists h1 p1, (match sl_method (p_old p) with
        | Some _ => do s0 <- slot_free (p_old p) s; Ok (s0, mk_pst (p_cell p) no_slot (p_cur p))
        | None => Ok (s, p) end) = Ok (set_heap h1 s, p1) /\ p_cur p1 = p_cur p /\ Inv (set_peer i p1 (set_heap h1 s))).
    { destruct (sl_method (p_old p)) as [ko|] eqn:Eo.
      - destruct (slot_free_ok U ms s _ _ ko R Wo Eo) as (h1 & E5 & W1). rewrite E5. cbn [bind]. exists h1. eexists. split; [reflexivity|]. split; [reflexivity|].
        eapply Inv_close; [exact V|exact F|exact full_none|]. unfold mine. cbn [p_cell p_old p_cur]. eapply World_perm; [|apply none_slot, W1].
        symmetry. etransitivity; [apply perm_swap|]. apply perm_skip, perm_swap.
      - exists (s_heap s), p. split; [now rewrite same_heap|]. split; [reflexivity|]. rewrite same_heap. unfold set_peer. rewrite set_find; [|exact F|apply V]. destruct s; exact V. }
    destruct T as (h1 & p1 & E5 & C5 & V5). rewrite E5. cbn [bind]. set (s5 := set_peer i p1 (set_heap h1 s)) in *.
    assert (F5 : find_peer (s_peers s5) i = Some p1) by (unfold s5; eapply find_set; cbn; exact F).
    pose proof (open_cur s5 i p1 V5 F5) as W5. assert (R5 : ready ms s5) by apply V5. rewrite C5, Ec in W5. rewrite C5, Ec.
    rewrite (slot_touch_ok U ms s5 _ kc qc R5 W5), (slot_use_ok U ms s5 _ kc qc R5 W5). cbn [bind].
    exists s5. split; [destruct (a_cleaned a), (a_initiator a); reflexivity|]. split; [exact V5|]. cbn. apply set_ids.
  Qed.

  Lemma send_ok : forall s i a, Inv s -> exists s', send i a s = Ok s' /\ Inv s' /\ map fst (s_peers s') = map fst (s_peers s).
  Proof.
    intros s i a V. unfold send. destruct (find_peer (s_peers s) i) as [p|] eqn:F; [|now exists s].
    pose proof (open_cur s i p V F) as Wc. pose proof (open_old s i p V F) as Wo. assert (R : ready ms s) by apply V.
    destruct (slot_valid_ok U ms s _ _ (a_cur a) R Wc) as (v & E1 & C1). rewrite E1. cbn [bind].
    destruct v; cbn [negb].
    2:{ destruct (reset_ok U ms s i V) as (s2 & E2 & V2 & P2 & _). now exists s2. }
    destruct (C1 eq_refl) as (kc & qc & Ec). rewrite Ec in Wc |- *. rewrite (slot_touch_ok U ms s _ kc qc R Wc). cbn [bind].
    destruct (slot_valid_ok U ms s _ _ (a_old a) R Wo) as (vo & E2 & C2). rewrite E2.
    destruct (a_initiator a); cbn [bind].
    - destruct vo; cbn [bind].
      + destruct (C2 eq_refl) as (ko & qo & Eo). rewrite Eo in Wo |- *. rewrite (slot_use_ok U ms s _ ko qo R Wo). now exists s.
      + rewrite (slot_use_ok U ms s _ kc qc R Wc). now exists s.
    - rewrite (slot_use_ok U ms s _ kc qc R Wc). now exists s.
  Qed.

  (** writing the cache leaves the keys alone *)
  Lemma keyed_upd : forall h k secret H q c d x, keyed h k secret H q -> nth_error h c = Some (mk_cell Peer d true) -> keyed (upd h c x) k secret H q.
  Proof.
    intros h k secret H q c d x (p & m & N & SO & PO & A & K & KH) C.
    assert (D : q <> c) by (intros ->; unfold sess_ok in SO; congruence).
    assert (E : parts_of (upd h c x) q = parts_of h q) by (unfold parts_of; now rewrite upd_other).
    assert (P : forall y, In y (parts_of h q) -> part_ok U (upd h c x) y /\ key_in (upd h c x) y = key_in h y).
    { intros [i st] Y. rewrite Forall_forall in PO. specialize (PO _ Y). destruct PO as [HU PO]. cbn [fst snd] in *. unfold part_ok, key_in, holds_part. cbn [fst snd].
      destruct st as [r|]; [|now split].
      destruct PO as [NN PO]. assert (NC : r <> c).
      { intros ->. destruct i; try (destruct PO as (d0 & PO); congruence). destruct PO as (e & d0 & PO & _). congruence. }
      rewrite upd_other by exact NC. split.
      - split; [exact HU|]. split; [exact NN|]. destruct i; try exact PO. destruct PO as (e & d0 & P1 & P2). exists e, d0. split; [exact P1|]. rewrite upd_other by congruence. exact P2.
      - cbn [flat_map]. unfold data_of at 1 3. rewrite upd_other by exact NC. f_equal.
        destruct i; try (destruct PO as (d0 & PO); rewrite PO; reflexivity). destruct PO as (e & d0 & P1 & P2). rewrite P1. cbn [flat_map]. unfold data_of. rewrite upd_other by congruence. reflexivity. }
    exists p, m. rewrite E. split; [exact N|]. split; [unfold sess_ok; rewrite upd_other by exact D; exact SO|]. split; [|split; [exact A|split]].
    - rewrite Forall_forall. intros y Y. now apply P.
    - intros L. rewrite <- (K L). clear -P. induction (parts_of h q) as [|y l IH]; [reflexivity|]. cbn [filter]. destruct (derived y); cbn [flat_map].
      + rewrite IH by (intros z Z; apply P; now right). f_equal. apply P. now left.
      + apply IH. intros z Z. apply P. now right.
    - intros y Y Dy. destruct (KH y Y Dy) as (H0 & E1 & E2). exists H0. split; [exact E1|]. rewrite <- E2. now apply P.
  Qed.

  Definition target (e : event) : option (N * nat * bytes * option bytes * bool) :=
    match e with Established i k s H up _ | Finished i k s H up _ => Some (i, k, s, H, up) | _ => None end.

  Lemma step_ok : forall s e l, Inv s -> sound (length ms) (map fst (s_peers s)) (e :: l) ->
    exists s', step X e s = Ok s' /\ Inv s' /\ sound (length ms) (map fst (s_peers s')) l /\
      (forall i k secret H, target e = Some (i, k, secret, H, true) -> H <> None ->
         exists p q, find_peer (s_peers s') i = Some p /\ p_cur p = mk_slot (Some k) (Some q) /\ keyed (s_heap s') k secret H q) /\
      (forall i k secret H up a, e = Finished i k secret H up a ->
         exists p, find_peer (s_peers s') i = Some p /\ nth_error (s_heap s') (p_cell p) = Some (mk_cell Peer (repeat 0%N CACHE) true)).
  Proof.
    intros s e l V Sd. destruct e as [i|i d|i k secret H up a|i k secret H up a|i a|i a|i|i]; cbn [sound step target] in *.
    - destruct Sd as [N Sd]. destruct (join_ok U ms s i V N) as (s' & E & V' & P). exists s'. rewrite P. split; [exact E|]. split; [exact V'|]. split; [exact Sd|]. split; discriminate.
    - destruct Sd as [I Sd]. destruct (cache_ok U ms s i (fit CACHE d) V I) as (s' & p & E & V' & P & _). exists s'. rewrite P. split; [exact E|]. split; [exact V'|]. split; [exact Sd|]. split; discriminate.
    - destruct Sd as (I & L & Sd). destruct (establish_ok s i k secret H up true a V I L) as (s' & E & V' & P & K). exists s'. rewrite P. split; [exact E|]. split; [exact V'|].
      split; [exact Sd|]. split; [|discriminate]. intros i0 k0 sec0 H0 Q HN. injection Q as <- <- <- <- ->. exact (K HN eq_refl).
    - destruct Sd as (I & L & Sd). destruct (establish_ok s i k secret H up false a V I L) as (s1 & E & V1 & P & K). rewrite E. cbn [bind].
      rewrite <- P in I. destruct (cache_ok U ms s1 i (repeat 0%N CACHE) V1 I) as (s' & p & E' & V' & P' & F' & Z).
      exists s'. rewrite P', P. split; [exact E'|]. split; [exact V'|]. split; [exact Sd|]. split.
      + intros i0 k0 sec0 H0 Q HN. injection Q as <- <- <- <- ->. destruct (K HN eq_refl) as (p1 & q & F1 & C1 & K1).
        exists p1, q. split; [exact F1|]. split; [exact C1|].
        unfold set_cache in E'. rewrite F1 in E'. pose proof (Inv_open U ms s1 i p1 V1 F1) as W1. pose proof (World_ok U ms _ _ _ W1 (or_introl eq_refl)) as [d C2].
        rewrite (load_ok _ _ _ _ C2) in E'. cbn in E'. injection E' as <-. cbn. eapply keyed_upd; eauto.
      + intros i0 k0 sec0 H0 up0 a0 Q. injection Q as <- _ _ _ _ _. exists p. auto.
    - destruct (recv_ok s i a V) as (s' & E & V' & P). exists s'. rewrite P. split; [exact E|]. split; [exact V'|]. split; [exact Sd|]. split; discriminate.
    - destruct (send_ok s i a V) as (s' & E & V' & P). exists s'. rewrite P. split; [exact E|]. split; [exact V'|]. split; [exact Sd|]. split; discriminate.
    - destruct (reset_ok U ms s i V) as (s' & E & V' & P & _). exists s'. rewrite P. split; [exact E|]. split; [exact V'|]. split; [exact Sd|]. split; discriminate.
    - destruct (free_ok U ms s i V) as (s' & E & V' & P & _). exists s'. rewrite P. split; [exact E|]. split; [exact V'|]. split; [exact Sd|]. split; discriminate.
  Qed.

  Lemma run_ok : forall l s, Inv s -> sound (length ms) (map fst (s_peers s)) l -> exists s', run X l s = Ok s' /\ Inv s'.
  Proof.
    induction l as [|e l IH]; intros s V Sd; [now exists s|]. destruct (step_ok s e l V Sd) as (s1 & E & V1 & S1 & _). cbn [run]. rewrite E. cbn [bind]. exact (IH s1 V1 S1).
  Qed.
  Lemma run_app : forall l1 l2 s, run X (l1 ++ l2) s = (do s1 <- run X l1 s; run X l2 s1).
  Proof. induction l1 as [|e l1 IH]; intros l2 s; [reflexivity|]. cbn. destruct (step X e s); cbn; auto. Qed.
  Lemma run_last : forall l s e, Inv s -> sound (length ms) (map fst (s_peers s)) (l ++ [e]) -> exists s0 s', run X l s = Ok s0 /\ Inv s0 /\ step X e s0 = Ok s' /\ Inv s' /\
      (forall i k secret H, target e = Some (i, k, secret, H, true) -> H <> None ->
         exists p q, find_peer (s_peers s') i = Some p /\ p_cur p = mk_slot (Some k) (Some q) /\ keyed (s_heap s') k secret H q) /\
      (forall i k secret H up a, e = Finished i k secret H up a ->
         exists p, find_peer (s_peers s') i = Some p /\ nth_error (s_heap s') (p_cell p) = Some (mk_cell Peer (repeat 0%N CACHE) true)).
  Proof.
    induction l as [|e0 l IH]; intros s e V Sd.
    - destruct (step_ok s e [] V Sd) as (s1 & E & V1 & _ & T). exists s, s1. auto.
    - cbn [app] in Sd. destruct (step_ok s e0 _ V Sd) as (s1 & E & V1 & S1 & _). destruct (IH s1 e V1 S1) as (s2 & s3 & A & B). exists s2, s3. cbn [run]. rewrite E. cbn [bind]. auto.
  Qed.

  Lemma start_ok : Inv (start ms).
  Proof.
    split; [reflexivity|]. split; [constructor|]. split; [|constructor]. cbn. split; [constructor|]. split; [|intros [|q] c E; discriminate E].
    intros q. unfold alive. cbn. destruct q; reflexivity.
  Qed.

  (** the end *)
  Lemma delete_ok : forall l s, Inv s -> map fst l = map fst (s_peers s) -> exists s', delete_peers l s = Ok s' /\ Inv s' /\ s_peers s' = [].
  Proof.
    induction l as [|[i p] l IH]; intros s V E.
    - exists s. split; [reflexivity|]. split; [exact V|]. destruct (s_peers s); [reflexivity|discriminate].
    - cbn [delete_peers fst]. destruct (free_ok U ms s i V) as (s1 & E1 & V1 & P1 & _). rewrite E1. cbn [bind].
      apply IH; [exact V1|]. rewrite P1, <- E. cbn [map fst remove]. destruct (N.eq_dec i i); [|congruence].
      assert (ND : NoDup (map fst ((i, p) :: l))) by (rewrite E; apply V). cbn in ND. inversion ND; subst. symmetry. now apply notin_remove.
  Qed.

  Lemma holds_owners : forall h l q, total h (owners l) q = count_occ Nat.eq_dec (flat_map (fun x => holds_peer h (snd x)) l) q.
  Proof.
    intros h l q. induction l as [|[i p] l IH]; [reflexivity|]. cbn [owners flat_map snd app total]. fold (owners l). rewrite IH, count_occ_app. unfold cnt. cbn [fp].
    unfold holds_peer. change (p_cell p :: holds_slot h (p_old p) ++ holds_slot h (p_cur p)) with ([p_cell p] ++ holds_slot h (p_old p) ++ holds_slot h (p_cur p)). rewrite !count_occ_app. lia.
  Qed.
  Lemma account : forall s, Inv s -> NoDup (holds s) /\ forall q, In q (holds s) <-> is_live (s_heap s) q.
  Proof.
    intros s (_ & _ & (_ & T & _) & _). assert (C : forall q, count_occ Nat.eq_dec (holds s) q = alive (s_heap s) q) by (intros q; unfold holds; rewrite <- holds_owners; apply T).
    assert (LV : forall q, is_live (s_heap s) q <-> alive (s_heap s) q = 1).
    { intros q. unfold is_live, alive. destruct (nth_error (s_heap s) q) as [c|]; [|split; [intros (c & E & _); discriminate|discriminate]].
      destruct (c_live c) eqn:E; split; try discriminate; [reflexivity|intros _; now exists c|]. intros (c' & Q & E'). injection Q as <-. congruence. }
    assert (LE : forall q, alive (s_heap s) q <= 1) by (intros q; unfold alive; destruct (nth_error (s_heap s) q) as [c|]; [destruct (c_live c)|]; lia).
    split.
    - apply (NoDup_count_occ Nat.eq_dec). intros q. rewrite C. apply LE.
    - intros q. rewrite LV, (count_occ_In Nat.eq_dec), C. specialize (LE q). lia.
  Qed.
  Lemma wiped : forall s q c, Inv s -> is_freed (s_heap s) q c -> ~ is_peer c -> clean c.
  Proof. intros s q c (_ & _ & (_ & _ & D) & _) [E L] P. exact (D q c E L P). Qed.
  Lemma cleanup_ok : forall s, Inv s -> exists s', cleanup s = Ok s' /\ (forall q, ~ is_live (s_heap s') q) /\ forall q c, is_freed (s_heap s') q c -> ~ is_peer c -> clean c.
  Proof.
    intros s V. unfold cleanup. destruct (delete_ok (s_peers s) s V eq_refl) as (s1 & E & V1 & P). rewrite E. cbn [bind]. eexists. split; [reflexivity|]. cbn [s_heap].
    destruct (account s1 V1) as [_ A]. split; [|intros q c; now apply wiped]. intros q Q. apply A in Q. unfold holds in Q. rewrite P in Q. exact Q.
  Qed.
End histories.
