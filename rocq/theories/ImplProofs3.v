(** Proofs about the memory of sessions: methods and peers *)
From Verif Require Import Base BufferModel MethodModel NameModel NameSpec NameProofs ImplModel ImplSpec ImplProofs ImplProofs2.
From Coq Require Import Permutation String.
Notation length := List.length.

Lemma firstn_plus : forall A a b (l : list A), firstn (a + b) l = firstn a l ++ firstn b (skipn a l).
Proof. induction a as [|a IH]; intros b [|x l]; cbn; auto. - now rewrite firstn_nil. - now rewrite IH. Qed.
Lemma skipn_plus : forall A a b (l : list A), skipn b (skipn a l) = skipn (a + b) l.
Proof. induction a as [|a IH]; intros b [|x l]; cbn; auto. now rewrite skipn_nil. Qed.
Lemma block_length : forall d, length (block d) = 16.
Proof. intros d. unfold block. rewrite firstn_length, app_length, repeat_length. lia. Qed.
Lemma fit_length : forall n d, length (fit n d) = n.
Proof. intros n d. unfold fit. rewrite firstn_length, app_length, repeat_length. lia. Qed.

Section sessions.
  Variable X : chosen.
  Variable U : impl -> Prop.
  Variable ms : list (provider * method).

  Definition cipher_good (c : cipher_info) : Prop :=
    exists i, the_cipher X c = Some i /\ U i /\ key_bytes i = cipher_keylen c /\ str (algorithm i) = ci_name c /\ is_mac i = false.
  Definition mac_good (x : bytes) : Prop := exists i, the_mac X x = Some i /\ U i /\ str (algorithm i) = x /\ is_mac i = true.
  Definition method_good (p : provider) (m : method) : Prop :=
    match p, m with
    | PlainNull, M_none | NullL2tp, M_none => True
    | CipherTest, M_cipher c | GenericPoly1305, M_cipher c => cipher_good c
    | GenericGmac, M_generic c x => cipher_good c /\ mac_good x /\ x = str "ghash"
    | GenericUmac, M_generic c x => cipher_good c /\ mac_good x /\ x = str "uhash"
    | ComposedGmac, M_composed c t x => cipher_good c /\ cipher_good t /\ mac_good x /\ x = str "ghash"
    | ComposedUmac, M_composed c t x => cipher_good c /\ cipher_good t /\ mac_good x /\ x = str "uhash"
    | _, _ => False
    end.

  Notation World := (World U ms).

  Lemma ghash_of : forall i, str (algorithm i) = str "ghash" -> is_mac i = true -> key_bytes i = 16 /\ forall st, derived (i, st) = false.
  Proof. intros i A M. apply str_inj in A. destruct i; try discriminate; auto. Qed.
  Lemma uhash_of : forall i, str (algorithm i) = str "uhash" -> is_mac i = true -> key_bytes i = mac_keylen (str "uhash") /\ forall st, derived (i, st) = true.
  Proof. intros i A M. apply str_inj in A. destruct i; try discriminate; auto. Qed.
  Lemma cipher_derived : forall i st, is_mac i = false -> derived (i, st) = true.
  Proof. intros i st M. destruct i; try discriminate; reflexivity. Qed.

  (** what [session_init] yields *)
  Definition made (h : heap) (O : list owner) (p : provider) (m : method) (secret : bytes) (H : option bytes) (r : res (heap * option nat)) : Prop :=
    (exists h', r = Ok (h', None) /\ World h' O /\ H = None) \/
    (exists h' s parts, r = Ok (h', Some s) /\ World h' (OSess s p parts :: map OPart parts ++ O) /\ length parts = fields p /\
       map (fun x => str (algorithm (fst x))) parts = algorithms m /\
       flat_map (key_in h') (filter derived parts) = firstn (key_length p m) secret /\
       (forall x, In x parts -> derived x = false -> exists H0, H = Some H0 /\ key_in h' x = block H0)).
  Lemma derived_all : forall (parts : list (impl * option nat)) (K : impl * option nat -> Prop), Forall (fun x => derived x = true) parts -> forall x, In x parts -> derived x = false -> K x.
  Proof. intros parts K F x I D. rewrite Forall_forall in F. rewrite (F x I) in D. discriminate. Qed.
  Lemma block_whole : forall H, firstn 16 (block H) = block H.
  Proof. intros H. apply firstn_all2. rewrite block_length. lia. Qed.

  Lemma session_init_ok : forall h O p m secret H, World h O -> method_good p m -> key_length p m <= length secret ->
    made h O p m secret H (session_init X p m secret H h).
  Proof.
    intros h O p m secret H W G L.
    pose proof (alloc_sess U ms h O p W) as W0.
    unfold session_init. cbn [alloc]. set (s := length h) in *. set (h0 := h ++ _) in *.
    assert (W1 : World h0 (OSess s p [] :: map OPart [] ++ O)) by exact W0. clear W0.
    destruct p, m; cbn [method_good] in G; try contradiction.
    - (* cipher-test *)
      destruct G as (i & E & HU & KL & A & M). rewrite E. cbn [key_length] in L.
      destruct (add_part_ok U ms h0 O s _ [] i secret 0 W1 HU) as (h1 & st & E1 & W2 & K1); [lia|]. rewrite E1. cbn [bind app map] in *.
      right. exists h1, s, [(i, st)]. split; [reflexivity|]. split; [exact W2|]. split; [reflexivity|]. cbn [map fst algorithms]. split; [now rewrite A|].
      cbn [filter]. rewrite cipher_derived by exact M. cbn [flat_map key_length]. injection K1 as K1. split; [rewrite K1, KL, app_nil_r; reflexivity|].
      apply derived_all. repeat constructor. now apply cipher_derived.
    - (* composed-gmac *)
      destruct G as ((i & E & HU & KL & A & M) & (j & E' & HU' & KL' & A' & M') & (g & Eg & HUg & Ag & Mg) & Hx).
      destruct (ghash_of g) as [KLg Dg]; [rewrite Ag; exact Hx|exact Mg|]. cbn [key_length] in L.
      rewrite E, E', Eg. unfold use_part, free_part.
      destruct (add_part_ok U ms h0 O s _ [] i secret 0 W1 HU) as (h1 & st & E1 & W2 & K1); [lia|]. rewrite E1. cbn [bind app] in *.
      destruct (add_part_ok U ms h1 O s _ [(i, st)] j secret (cipher_keylen c) W2 HU') as (h2 & st' & E2 & W3 & K2); [lia|]. rewrite E2. cbn [bind app] in *.
      rewrite (part_found U ms h2 _ s _ [(i, st); (j, st')] 1 (j, st') W3 (or_introl eq_refl) eq_refl). cbn [bind fst snd].
      rewrite (impl_use_ok U ms h2 _ j st' W3) by (right; right; now left). cbn [bind].
      destruct H as [H|].
      + destruct (add_part_ok U ms h2 O s _ [(i, st); (j, st')] g (block H) 0 W3 HUg) as (h3 & sg & E3 & W4 & K3); [rewrite block_length; lia|]. rewrite E3. cbn [bind app] in *.
        right. exists h3, s, [(i, st); (j, st'); (g, sg)]. split; [reflexivity|]. split; [exact W4|]. split; [reflexivity|]. cbn [map fst algorithms]. split; [congruence|].
        cbn [filter]. rewrite (cipher_derived i), (cipher_derived j), Dg by assumption. cbn [flat_map key_length]. cbn [map app] in K1, K2, K3.
        injection K3 as K3 K4 K6. injection K2 as K2 K5. injection K1 as K1. split; [rewrite K3, K4, K2, K5, K1, KL, KL', app_nil_r, firstn_plus; reflexivity|].
        intros x [<-|[<-|[<-|[]]]] D; try (rewrite cipher_derived in D by assumption; discriminate). exists H. split; [reflexivity|]. rewrite K6, KLg. apply block_whole.
      + rewrite (part_found U ms h2 _ s _ [(i, st); (j, st')] 0 (i, st) W3 (or_introl eq_refl) eq_refl). cbn [bind fst snd].
        assert (W4 : World h2 (OPart (i, st) :: OSess s ComposedGmac [(i, st); (j, st')] :: OPart (j, st') :: O)).
        { eapply World_perm; [|exact W3]. apply perm_swap. }
        destruct (impl_free_ok U ms h2 _ i st W4) as (h3 & E3 & W5). rewrite E3. cbn [bind].
        rewrite (part_found U ms h3 _ s _ [(i, st); (j, st')] 1 (j, st') W5 (or_introl eq_refl) eq_refl). cbn [bind fst snd].
        assert (W6 : World h3 (OPart (j, st') :: OSess s ComposedGmac [(i, st); (j, st')] :: O)) by (eapply World_perm; [|exact W5]; apply perm_swap).
        destruct (impl_free_ok U ms h3 _ j st' W6) as (h4 & E4 & W7). rewrite E4. cbn [bind].
        destruct (free_sess U ms h4 O s _ _ W7) as (h5 & E5 & W8). rewrite E5. cbn [bind]. left. exists h5. auto.
    - (* composed-umac *)
      destruct G as ((i & E & HU & KL & A & M) & (j & E' & HU' & KL' & A' & M') & (g & Eg & HUg & Ag & Mg) & Hx).
      destruct (uhash_of g) as [KLg Dg]; [rewrite Ag; exact Hx|exact Mg|]. rewrite <- Hx in KLg. cbn [key_length] in L.
      rewrite E, E', Eg.
      destruct (add_part_ok U ms h0 O s _ [] i secret 0 W1 HU) as (h1 & st & E1 & W2 & K1); [lia|]. rewrite E1. cbn [bind app] in *.
      destruct (add_part_ok U ms h1 O s _ [(i, st)] j secret (cipher_keylen c) W2 HU') as (h2 & st' & E2 & W3 & K2); [lia|]. rewrite E2. cbn [bind app] in *.
      destruct (add_part_ok U ms h2 O s _ [(i, st); (j, st')] g secret (cipher_keylen c + cipher_keylen m) W3 HUg) as (h3 & sg & E3 & W4 & K3); [lia|]. rewrite E3. cbn [bind app] in *.
      right. exists h3, s, [(i, st); (j, st'); (g, sg)]. split; [reflexivity|]. split; [exact W4|]. split; [reflexivity|]. cbn [map fst algorithms]. split; [congruence|].
      cbn [filter]. rewrite (cipher_derived i), (cipher_derived j), Dg by assumption. cbn [flat_map key_length]. cbn [map app] in K1, K2, K3.
      injection K3 as K3 K4 K6. injection K2 as K2 K5. injection K1 as K1. split; [rewrite K3, K4, K6, K2, K5, K1, KL, KL', KLg, app_nil_r; rewrite !firstn_plus; cbn [skipn]; now rewrite <- app_assoc|].
      apply derived_all. repeat constructor; auto using cipher_derived.
    - (* generic-gmac *)
      destruct G as ((i & E & HU & KL & A & M) & (g & Eg & HUg & Ag & Mg) & Hx).
      destruct (ghash_of g) as [KLg Dg]; [rewrite Ag; exact Hx|exact Mg|]. cbn [key_length] in L.
      rewrite E, Eg. unfold use_part, free_part.
      destruct (add_part_ok U ms h0 O s _ [] i secret 0 W1 HU) as (h1 & st & E1 & W2 & K1); [lia|]. rewrite E1. cbn [bind app] in *.
      rewrite (part_found U ms h1 _ s _ [(i, st)] 0 (i, st) W2 (or_introl eq_refl) eq_refl). cbn [bind fst snd].
      rewrite (impl_use_ok U ms h1 _ i st W2) by (right; now left). cbn [bind].
      destruct H as [H|].
      + destruct (add_part_ok U ms h1 O s _ [(i, st)] g (block H) 0 W2 HUg) as (h3 & sg & E3 & W4 & K3); [rewrite block_length; lia|]. rewrite E3. cbn [bind app] in *.
        right. exists h3, s, [(i, st); (g, sg)]. split; [reflexivity|]. split; [exact W4|]. split; [reflexivity|]. cbn [map fst algorithms]. split; [congruence|].
        cbn [filter]. rewrite (cipher_derived i), Dg by assumption. cbn [flat_map key_length]. cbn [map app] in K1, K3.
        injection K3 as K3 K4. injection K1 as K1. split; [rewrite K3, K1, KL, app_nil_r; reflexivity|].
        intros x [<-|[<-|[]]] D; try (rewrite cipher_derived in D by assumption; discriminate). exists H. split; [reflexivity|]. rewrite K4, KLg. apply block_whole.
      + assert (W4 : World h1 (OPart (i, st) :: OSess s GenericGmac [(i, st)] :: O)).
        { eapply World_perm; [|exact W2]. apply perm_swap. }
        destruct (impl_free_ok U ms h1 _ i st W4) as (h3 & E3 & W5). rewrite E3. cbn [bind].
        destruct (free_sess U ms h3 O s _ _ W5) as (h5 & E5 & W8). rewrite E5. cbn [bind]. left. exists h5. auto.
    - (* generic-poly1305 *)
      destruct G as (i & E & HU & KL & A & M). rewrite E. cbn [key_length] in L.
      destruct (add_part_ok U ms h0 O s _ [] i secret 0 W1 HU) as (h1 & st & E1 & W2 & K1); [lia|]. rewrite E1. cbn [bind app map] in *.
      right. exists h1, s, [(i, st)]. split; [reflexivity|]. split; [exact W2|]. split; [reflexivity|]. cbn [map fst algorithms]. split; [now rewrite A|].
      cbn [filter]. rewrite cipher_derived by exact M. cbn [flat_map key_length]. injection K1 as K1. split; [rewrite K1, KL, app_nil_r; reflexivity|].
      apply derived_all. repeat constructor. now apply cipher_derived.
    - (* generic-umac *)
      destruct G as ((i & E & HU & KL & A & M) & (g & Eg & HUg & Ag & Mg) & Hx).
      destruct (uhash_of g) as [KLg Dg]; [rewrite Ag; exact Hx|exact Mg|]. rewrite <- Hx in KLg. cbn [key_length] in L.
      rewrite E, Eg.
      destruct (add_part_ok U ms h0 O s _ [] i secret 0 W1 HU) as (h1 & st & E1 & W2 & K1); [lia|]. rewrite E1. cbn [bind app] in *.
      destruct (add_part_ok U ms h1 O s _ [(i, st)] g secret (cipher_keylen c) W2 HUg) as (h3 & sg & E3 & W4 & K3); [lia|]. rewrite E3. cbn [bind app] in *.
      right. exists h3, s, [(i, st); (g, sg)]. split; [reflexivity|]. split; [exact W4|]. split; [reflexivity|]. cbn [map fst algorithms]. split; [congruence|].
      cbn [filter]. rewrite (cipher_derived i), Dg by assumption. cbn [flat_map key_length]. cbn [map app] in K1, K3.
      injection K3 as K3 K4. injection K1 as K1. split; [rewrite K3, K4, K1, KL, KLg, app_nil_r, firstn_plus; reflexivity|].
      apply derived_all. repeat constructor; auto using cipher_derived.
    - right. exists h0, s, []. split; [reflexivity|]. split; [exact W1|]. do 3 (split; [reflexivity|]). intros x [].
    - right. exists h0, s, []. split; [reflexivity|]. split; [exact W1|]. do 3 (split; [reflexivity|]). intros x [].
  Qed.

  (** * Slots *)
  Definition ready (s : st) : Prop := s_methods s = Some ms.

  Lemma get_method_ok : forall s k p m, ready s -> nth_error ms k = Some (p, m) -> get_method s k = Ok (p, m).
  Proof. intros s k p m R E. unfold get_method. rewrite R, E. reflexivity. Qed.

  Lemma session_free_ok : forall h O s p parts, length parts = fields p -> World h (OSess s p parts :: map OPart parts ++ O) ->
    exists h', session_free p (Some s) h = Ok h' /\ World h' O.
  Proof.
    intros h O s p parts L W. unfold session_free. rewrite (session_ok U ms h _ s p parts W (or_introl eq_refl)). cbn [bind].
    destruct (free_parts_ok U ms (fields p) s p [] parts h O L W) as (h1 & E & W1). cbn [length app] in *. rewrite E. cbn [bind].
    exact (free_sess U ms h1 O s p parts W1).
  Qed.

  Lemma slot_shape : forall h O x, World h (OSlot x :: O) -> (sl_method x = None /\ sl_state x = None) \/ (exists k, x = mk_slot (Some k) None /\ k < length ms) \/ exists k s, x = mk_slot (Some k) (Some s).
  Proof.
    intros h O [[k|] [s|]] W; pose proof (World_ok U ms _ _ _ W (or_introl eq_refl)) as K; cbn in K.
    - right. right. eauto.
    - right. left. exists k. auto.
    - contradiction.
    - left. auto.
  Qed.

  Lemma slot_free_ok : forall s O x k, ready s -> World (s_heap s) (OSlot x :: O) -> sl_method x = Some k ->
    exists h', slot_free x s = Ok (set_heap h' s) /\ World h' O.
  Proof.
    intros s O x k R W E. destruct (slot_shape _ _ _ W) as [[N _]|[(k' & -> & L)|(k' & q & ->)]]; [congruence| |]; cbn in E; injection E as ->.
    - unfold slot_free. cbn [sl_method]. destruct (nth_error ms k) as [[p m]|] eqn:F; [|apply nth_error_None in F; lia].
      rewrite (get_method_ok s k p m R F). cbn. exists (s_heap s). split; [reflexivity|]. exact (slot_none U ms _ _ _ W).
    - destruct (slot_open U ms _ _ _ _ W) as (p & m & parts & F & L & W1). unfold slot_free. cbn [sl_method sl_state].
      rewrite (get_method_ok s k p m R F). cbn [bind fst snd]. destruct (session_free_ok _ _ _ _ _ L W1) as (h' & E & W2). rewrite E. cbn [bind]. eauto.
  Qed.
  (** with the method checked first *)
  Lemma slot_clear : forall s O x, ready s -> World (s_heap s) (OSlot x :: O) ->
    exists h', reset_session x s = Ok (set_heap h' s) /\ World h' O.
  Proof.
    intros s O x R W. unfold reset_session. destruct (sl_method x) as [k|] eqn:E.
    - exact (slot_free_ok s O x k R W E).
    - exists (s_heap s). split; [destruct s; reflexivity|]. destruct x as [k st0]. cbn in E. subst k.
      destruct (slot_shape _ _ _ W) as [[_ N]|[(k' & Y & _)|(k' & q & Y)]]; try discriminate. cbn in N. subst st0. exact (slot_none U ms _ _ _ W).
  Qed.

  Lemma slot_valid_ok : forall s O x a, ready s -> World (s_heap s) (OSlot x :: O) ->
    exists b, slot_valid s x a = Ok b /\ (b = true -> exists k q, x = mk_slot (Some k) (Some q)).
  Proof.
    intros s O x a R W. unfold slot_valid. destruct (slot_shape _ _ _ W) as [[N _]|[(k & -> & L)|(k & q & ->)]].
    - rewrite N. exists false. split; [reflexivity|discriminate].
    - cbn [sl_method sl_state]. destruct (nth_error ms k) as [[p m]|] eqn:F; [|apply nth_error_None in F; lia].
      rewrite (get_method_ok s k p m R F). cbn. exists false. split; [reflexivity|discriminate].
    - destruct (slot_open U ms _ _ _ _ W) as (p & m & parts & F & L & W1). cbn [sl_method sl_state].
      rewrite (get_method_ok s k p m R F). cbn [bind fst snd session_valid].
      rewrite (session_ok U ms _ _ q p parts W1 (or_introl eq_refl)). cbn. exists a. split; [reflexivity|eauto].
  Qed.
  Lemma slot_use_ok : forall s O k q, ready s -> World (s_heap s) (OSlot (mk_slot (Some k) (Some q)) :: O) -> slot_use s (mk_slot (Some k) (Some q)) = Ok tt.
  Proof.
    intros s O k q R W. destruct (slot_open U ms _ _ _ _ W) as (p & m & parts & F & L & W1). unfold slot_use. cbn [sl_method sl_state].
    rewrite (get_method_ok s k p m R F). cbn [bind fst snd session_use]. rewrite (session_ok U ms _ _ q p parts W1 (or_introl eq_refl)). cbn [bind].
    apply (use_parts_ok U ms _ q p 0 _ _ parts W1 (or_introl eq_refl)); [|lia]. intros y Y. right. apply in_or_app. left. now apply in_map.
  Qed.
  Lemma slot_touch_ok : forall s O k q, ready s -> World (s_heap s) (OSlot (mk_slot (Some k) (Some q)) :: O) -> slot_touch s (mk_slot (Some k) (Some q)) = Ok tt.
  Proof.
    intros s O k q R W. destruct (slot_open U ms _ _ _ _ W) as (p & m & parts & F & L & W1). unfold slot_touch. cbn [sl_method sl_state].
    rewrite (get_method_ok s k p m R F). cbn [bind fst snd session_touch]. rewrite (session_ok U ms _ _ q p parts W1 (or_introl eq_refl)). reflexivity.
  Qed.

  (** * Peers *)
  Definition owners (l : list (N * pst)) : list owner :=
    flat_map (fun x => [OCell (p_cell (snd x)); OSlot (p_old (snd x)); OSlot (p_cur (snd x))]) l.
  Definition others (l : list (N * pst)) (i : N) : list (N * pst) := filter (fun x => negb (N.eqb i (fst x))) l.
  Definition full (x : slot) : Prop := sl_method x = None \/ sl_state x <> None.
  Definition fulls (l : list (N * pst)) : Prop := Forall (fun x => full (p_old (snd x))) l.
  Definition Inv (s : st) : Prop := ready s /\ NoDup (map fst (s_peers s)) /\ World (s_heap s) (owners (s_peers s)) /\ fulls (s_peers s).
  Definition mine (p : pst) (O : list owner) : list owner := OCell (p_cell p) :: OSlot (p_old p) :: OSlot (p_cur p) :: O.

  Lemma others_absent : forall l i, ~ In i (map fst l) -> others l i = l.
  Proof.
    induction l as [|[j p] l IH]; intros i H; [reflexivity|]. unfold others. cbn. destruct (N.eqb_spec i j) as [->|N]; [exfalso; apply H; now left|].
    cbn. f_equal. apply IH. intros Q. apply H. now right.
  Qed.
  Lemma map_absent : forall l i p', ~ In i (map fst l) -> map (fun x : N * pst => if N.eqb i (fst x) then (i, p') else x) l = l.
  Proof.
    induction l as [|[j p] l IH]; intros i p' H; [reflexivity|]. cbn. destruct (N.eqb_spec i j) as [->|N]; [exfalso; apply H; now left|].
    f_equal. apply IH. intros Q. apply H. now right.
  Qed.

  Lemma owners_find : forall l i p, NoDup (map fst l) -> find_peer l i = Some p -> Permutation (owners l) (mine p (owners (others l i))).
  Proof.
    induction l as [|[j p0] l IH]; intros i p ND H; [discriminate|]. cbn in H. inversion ND as [|? ? N1 N2]; subst.
    unfold others. cbn [filter fst]. destruct (N.eqb_spec i j) as [->|N].
    - injection H as ->. cbn [negb]. fold (others l j). rewrite others_absent by exact N1. reflexivity.
    - cbn [negb]. fold (others l i). unfold mine in *. cbn [owners flat_map snd app]. fold (owners l) (owners (others l i)).
      specialize (IH i p N2 H).
      transitivity (OCell (p_cell p0) :: OSlot (p_old p0) :: OSlot (p_cur p0) :: OCell (p_cell p) :: OSlot (p_old p) :: OSlot (p_cur p) :: owners (others l i)).
      + do 3 apply perm_skip. exact IH.
      + change (Permutation ([OCell (p_cell p0); OSlot (p_old p0); OSlot (p_cur p0)] ++ [OCell (p_cell p); OSlot (p_old p); OSlot (p_cur p)] ++ owners (others l i))
                            ([OCell (p_cell p); OSlot (p_old p); OSlot (p_cur p)] ++ [OCell (p_cell p0); OSlot (p_old p0); OSlot (p_cur p0)] ++ owners (others l i))).
        rewrite !app_assoc. apply Permutation_app_tail, Permutation_app_comm.
  Qed.
  Lemma find_in : forall l i p, find_peer l i = Some p -> In i (map fst l).
  Proof.
    induction l as [|[j p0] l IH]; intros i p H; [discriminate|]. cbn in *. destruct (N.eqb_spec i j) as [->|N]; [now left|right; eauto].
  Qed.
  Lemma find_none : forall l i, find_peer l i = None -> ~ In i (map fst l).
  Proof.
    induction l as [|[j p0] l IH]; intros i H; [easy|]. cbn in H. cbn [map fst In]. destruct (N.eqb i j) eqn:E; [discriminate|]. apply N.eqb_neq in E. intros [Q|Q]; [congruence|]. exact (IH i H Q).
  Qed.
  Lemma find_some : forall l i, In i (map fst l) -> exists p, find_peer l i = Some p.
  Proof. intros l i H. destruct (find_peer l i) as [p|] eqn:E; [eauto|]. now apply find_none in E. Qed.
  Lemma set_ids : forall l i p', map fst (map (fun x : N * pst => if N.eqb i (fst x) then (i, p') else x) l) = map fst l.
  Proof. induction l as [|[j p] l IH]; intros i p'; [reflexivity|]. cbn. rewrite IH. destruct (N.eqb_spec i j) as [->|N]; reflexivity. Qed.
  Lemma owners_set : forall l i p p', NoDup (map fst l) -> find_peer l i = Some p ->
    Permutation (owners (map (fun x => if N.eqb i (fst x) then (i, p') else x) l)) (mine p' (owners (others l i))).
  Proof.
    intros l i p p' ND H.
    set (l' := map _ l).
    assert (F : find_peer l' i = Some p').
    { unfold l'. clear ND. induction l as [|[j p0] l IH]; [discriminate|]. cbn in *. destruct (N.eqb_spec i j) as [->|N]; cbn; [now rewrite N.eqb_refl|].
      destruct (N.eqb_spec i j); [congruence|]. auto. }
    assert (O : others l' i = others l i).
    { unfold l', others. clear. induction l as [|[j p0] l IH]; [reflexivity|]. cbn. destruct (N.eqb_spec i j) as [->|N]; cbn; [rewrite N.eqb_refl; cbn; exact IH|].
      destruct (N.eqb_spec i j); [congruence|]. cbn. now rewrite IH. }
    rewrite <- O. apply owners_find; [|exact F]. unfold l'. now rewrite set_ids.
  Qed.
  Lemma find_set : forall s i p p', find_peer (s_peers s) i = Some p -> find_peer (s_peers (set_peer i p' s)) i = Some p'.
  Proof.
    intros [h l m] i p p'. cbn. induction l as [|[j p0] l IH]; intros H; [discriminate|]. cbn in *. destruct (N.eqb_spec i j) as [->|N]; cbn; [now rewrite N.eqb_refl|].
    destruct (N.eqb_spec i j); [congruence|]. auto.
  Qed.
  Lemma set_set : forall s i a b, set_peer i b (set_peer i a s) = set_peer i b s.
  Proof.
    intros [h l m] i a b. unfold set_peer. cbn. f_equal. rewrite map_map. apply map_ext. intros [j p]. cbn. destruct (N.eqb_spec i j) as [->|N]; cbn; [now rewrite N.eqb_refl|].
    destruct (N.eqb_spec i j); congruence.
  Qed.

  Lemma full_find : forall l i p, fulls l -> find_peer l i = Some p -> full (p_old p).
  Proof.
    induction l as [|[j p0] l IH]; intros i p F H; [discriminate|]. cbn in H. apply Forall_cons_iff in F. destruct F as [F1 F2].
    destruct (N.eqb i j); [injection H as <-; exact F1|eauto].
  Qed.
  Lemma full_set : forall l i p, fulls l -> full (p_old p) -> fulls (map (fun x : N * pst => if N.eqb i (fst x) then (i, p) else x) l).
  Proof.
    induction l as [|[j p0] l IH]; intros i p F H; [constructor|]. apply Forall_cons_iff in F. destruct F as [F1 F2]. cbn. constructor; [|now apply IH].
    destruct (N.eqb i j); [exact H|exact F1].
  Qed.
  Lemma full_others : forall l i, fulls l -> fulls (others l i).
  Proof. intros l i F. unfold fulls, others in *. rewrite Forall_forall in *. intros x I. apply filter_In in I. now apply F. Qed.
  Lemma full_none : full no_slot.
  Proof. now left. Qed.

  Lemma Inv_open : forall s i p, Inv s -> find_peer (s_peers s) i = Some p -> World (s_heap s) (mine p (owners (others (s_peers s) i))).
  Proof. intros s i p (_ & ND & W & _) F. eapply World_perm; [|exact W]. now apply owners_find. Qed.
  Lemma Inv_close : forall s h i p p', Inv s -> find_peer (s_peers s) i = Some p -> full (p_old p') -> World h (mine p' (owners (others (s_peers s) i))) -> Inv (set_peer i p' (set_heap h s)).
  Proof.
    intros s h i p p' (R & ND & W & FU) F Hf W'. split; [exact R|]. split; [cbn; now rewrite set_ids|]. split; [|now apply full_set]. cbn. eapply World_perm; [|exact W'].
    symmetry. eapply owners_set; eauto.
  Qed.

  Lemma reset_ok : forall s i, Inv s -> exists s', reset_peer_state i s = Ok s' /\ Inv s' /\ map fst (s_peers s') = map fst (s_peers s) /\
    forall p, find_peer (s_peers s) i = Some p -> find_peer (s_peers s') i = Some (mk_pst (p_cell p) no_slot no_slot).
  Proof.
    intros s i V. unfold reset_peer_state. destruct (find_peer (s_peers s) i) as [p|] eqn:F; [|exists s; repeat split; try apply V; discriminate].
    pose proof (Inv_open s i p V F) as W. destruct V as (R & ND & W0 & FU). set (O := owners (others (s_peers s) i)) in *.
    pose proof (World_ok U ms _ _ _ W (or_introl eq_refl)) as [d K]. rewrite (load_ok _ _ _ _ K). cbn [bind].
    assert (W1 : World (s_heap s) (OSlot (p_old p) :: OSlot (p_cur p) :: OCell (p_cell p) :: O)).
    { eapply World_perm; [|exact W]. unfold mine. etransitivity; [apply perm_swap|]. apply perm_skip, perm_swap. }
    destruct (slot_clear s _ _ R W1) as (h1 & E1 & W2). rewrite E1. cbn [bind].
    destruct (slot_clear (set_heap h1 s) _ _ R W2) as (h2 & E2 & W3). rewrite E2. cbn [bind].
    change (set_heap h2 (set_heap h1 s)) with (set_heap h2 s).
    eexists. split; [reflexivity|]. split; [|split].
    - eapply Inv_close; [split; [exact R|split; [exact ND|split; [exact W0|exact FU]]]|exact F|exact full_none|]. unfold mine. cbn [p_cell p_old p_cur].
      eapply World_perm; [|apply none_slot, none_slot, W3]. fold O. symmetry. etransitivity; [apply perm_swap|]. apply perm_skip, perm_swap.
    - cbn. apply set_ids.
    - intros p0 Q. injection Q as <-. change (s_peers s) with (s_peers (set_heap h2 s)) in F. exact (find_set _ i p _ F).
  Qed.

  Lemma others_ids : forall l i, map fst (others l i) = remove N.eq_dec i (map fst l).
  Proof.
    induction l as [|[j p] l IH]; intros i; [reflexivity|]. unfold others. cbn [filter map fst remove]. destruct (N.eqb_spec i j) as [->|N].
    - destruct (N.eq_dec j j); [|congruence]. exact (IH j).
    - destruct (N.eq_dec i j); [congruence|]. cbn [negb map fst]. f_equal. exact (IH i).
  Qed.
  Lemma others_nodup : forall l i, NoDup (map fst l) -> NoDup (map fst (others l i)).
  Proof.
    induction l as [|[j p] l IH]; intros i ND; [constructor|]. inversion ND as [|? ? N1 N2]; subst. unfold others. cbn [filter fst].
    destruct (N.eqb i j); cbn [negb]; [exact (IH i N2)|]. cbn. constructor; [|exact (IH i N2)]. intros Q. apply N1. fold (others l i) in Q. rewrite others_ids in Q.
    now apply in_remove in Q.
  Qed.

  Lemma free_ok : forall s i, Inv s -> exists s', free_peer_state i s = Ok s' /\ Inv s' /\ map fst (s_peers s') = remove N.eq_dec i (map fst (s_peers s)) /\ s_peers s' = others (s_peers s) i.
  Proof.
    intros s i V. unfold free_peer_state. destruct (find_peer (s_peers s) i) as [p|] eqn:F.
    2:{ exists s. apply find_none in F. rewrite notin_remove by exact F. repeat split; try apply V. symmetry. now apply others_absent. }
    pose proof (Inv_open s i p V F) as W. destruct V as (R & ND & W0 & FU). set (O := owners (others (s_peers s) i)) in *.
    pose proof (World_ok U ms _ _ _ W (or_introl eq_refl)) as [d K]. rewrite (load_ok _ _ _ _ K). cbn [bind].
    assert (W1 : World (s_heap s) (OSlot (p_old p) :: OSlot (p_cur p) :: OCell (p_cell p) :: O)).
    { eapply World_perm; [|exact W]. unfold mine. etransitivity; [apply perm_swap|]. apply perm_skip, perm_swap. }
    destruct (slot_clear s _ _ R W1) as (h1 & E1 & W2). rewrite E1. cbn [bind].
    destruct (slot_clear (set_heap h1 s) _ _ R W2) as (h2 & E2 & W3). rewrite E2. cbn [bind].
    change (set_heap h2 (set_heap h1 s)) with (set_heap h2 s). cbn [set_heap s_heap].
    destruct (free_cell U ms _ _ _ W3) as (h3 & E3 & W4). rewrite E3. cbn [bind].
    eexists. split; [reflexivity|]. split; [|split; [apply others_ids|reflexivity]].
    split; [exact R|]. split; [cbn; now apply others_nodup|]. split; [exact W4|now apply full_others].
  Qed.

  Lemma join_ok : forall s i, Inv s -> ~ In i (map fst (s_peers s)) -> exists s', init_peer_state i s = Ok s' /\ Inv s' /\ map fst (s_peers s') = i :: map fst (s_peers s).
  Proof.
    intros s i (R & ND & W & FU) N. unfold init_peer_state. destruct (find_peer (s_peers s) i) as [p|] eqn:F; [apply find_in in F; contradiction|].
    cbn [alloc]. eexists. split; [reflexivity|]. split; [|reflexivity]. split; [exact R|]. split; [cbn; now constructor|]. split; [|now constructor; [exact full_none|]].
    cbn [s_heap s_peers owners flat_map snd p_cell p_old p_cur app].
    pose proof (alloc_cell U ms (s_heap s) _ (repeat 0%N CACHE) W) as W1.
    eapply World_perm; [|apply none_slot, none_slot, W1]. symmetry. etransitivity; [apply perm_swap|]. apply perm_skip, perm_swap.
  Qed.

  Lemma cache_ok : forall s i d, Inv s -> In i (map fst (s_peers s)) -> exists s' p, set_cache i d s = Ok s' /\ Inv s' /\ s_peers s' = s_peers s /\
    find_peer (s_peers s) i = Some p /\ nth_error (s_heap s') (p_cell p) = Some (mk_cell Peer d true).
  Proof.
    intros s i d V I. unfold set_cache. destruct (find_some _ _ I) as [p F]. rewrite F.
    pose proof (Inv_open s i p V F) as W. destruct V as (R & ND & W0 & FU).
    destruct (write_cell U ms _ _ _ d W) as (c0 & E & Ec & W1). rewrite E. cbn [bind]. eexists. exists p. split; [reflexivity|]. split; [|split; [reflexivity|]].
    - split; [exact R|]. split; [exact ND|]. split; [|exact FU]. cbn. eapply World_perm; [|exact W1]. symmetry. now apply owners_find.
    - split; [reflexivity|]. cbn. rewrite Ec. unfold load in E. destruct (nth_error (s_heap s) (p_cell p)) as [c|] eqn:En; [|discriminate]. eapply upd_same; eauto.
  Qed.
End sessions.
