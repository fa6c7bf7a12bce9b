From Coq Require Import String Lia ZifyBool ZifyNat ZifyN.
From Verif Require Import Base BufferModel MethodModel AddrModel AddrSpec FormatModel FormatSpec FormatProofs LogModel LogTable LogSpec.
Local Open Scope N_scope.

(** *** Types of formats *)
Definition tconv (d : N) (ts : list ty) : option (list ty) :=
  if d =? 37 then Some ts
  else if d =? 105 then match ts with TInt :: r | TNat :: r => Some r | _ => None end
  else if d =? 117 then match ts with TNat :: r | TUint :: r => Some r | _ => None end
  else if (d =? 85) || (d =? 90) then match ts with TSize :: r => Some r | _ => None end
  else if d =? 115 then match ts with TStr :: r | TStrNull :: r | TNet :: r => Some r | _ => None end
  else if d =? 69 then match ts with TMac :: r => Some r | _ => None end
  else if d =? 80 then match ts with TPeer :: r => Some r | _ => None end
  else if d =? 72 then match ts with TKey :: TKeyLen :: r => Some r | _ => None end
  else if d =? 73 then match ts with TRemote :: r => Some r | _ => None end
  else if d =? 66 then match ts with TBind :: r => Some r | _ => None end
  else if d =? 76 then match ts with TBind :: TStr :: r => Some r | _ => None end
  else None.
Fixpoint typed (fmt : bytes) (ts : list ty) : bool :=
  match fmt with
  | [] => match ts with [] => true | _ => false end
  | x :: fmt =>
      if negb (x =? 37) then negb (x =? 0) && negb (x =? 10) && typed fmt ts
      else match fmt with
           | [] => false
           | d :: fmt => match tconv d ts with Some r => typed fmt r | None => false end
           end
  end.

(** *** Texts *)
Lemma in_app4 : forall (x : N) a b, ~ In x a -> ~ In x b -> ~ In x (a ++ b).
Proof. intros x a b Ha Hb H. apply in_app_or in H. tauto. Qed.

Lemma digits_range : forall d x, In x (digits d) -> 48 <= x <= 57.
Proof. induction d; cbn [digits]; intros x Hx; try destruct Hx as [<-|Hx]; try lia; try contradiction; auto. Qed.
Lemma dec_no : forall n x, x < 48 -> ~ In x (dec n).
Proof. intros n x Hx H. apply digits_range in H. lia. Qed.
Lemma zdec_no : forall z x, x < 45 -> ~ In x (zdec z).
Proof. intros z x Hx H. unfold zdec in H. destruct (z <? 0)%Z; [destruct H as [<-|H]; [lia|]|]; apply digits_range in H; lia. Qed.
Lemma hex_no : forall b x, x < 48 -> ~ In x (hex b).
Proof. intros b x Hx H. unfold hex, hex_digit in H. destruct H as [H|[H|[]]]; destruct (_ <? 10) in H; lia. Qed.
Lemma hexes_no : forall d x, x < 48 -> ~ In x (flat_map hex d).
Proof. induction d as [|b d IH]; intros x Hx; cbn [flat_map]; [intros []|]. apply in_app4; [apply hex_no; exact Hx|apply IH; exact Hx]. Qed.
Lemma mac_no : forall d x, x < 48 -> ~ In x (mac_text d).
Proof.
  induction d as [|b d IH]; intros x Hx; [intros []|]. destruct d as [|b' d]; [apply hex_no; exact Hx|].
  change (mac_text (b :: b' :: d)) with (hex b ++ 58 :: mac_text (b' :: d)). apply in_app4; [apply hex_no; exact Hx|].
  intros [H|H]; [lia|]. exact (IH x Hx H).
Qed.
Lemma describe_no : forall k x, x < 48 -> ~ In x (describe k).
Proof.
  intros k x Hx H. unfold describe in H. apply (hexes_no (firstn 32 k) x Hx). rewrite <- (firstn_skipn 16). apply in_or_app. left. exact H.
Qed.

(** *** One conversion *)
Section Conv.
Variable l : lib.
Variable c : logconf.

(** the byte [x] does not occur in the arguments *)
Definition vfree (x : N) (t : ty) (v : val) : Prop :=
  match v with
  | VlStr (Some s) => ~ In x s
  | VlPeer (Some (Some name, _)) => ~ In x name
  | _ => True
  end.
Definition lfree (x : N) : Prop :=
  (forall ip s, l_ntop4 l ip = Some s -> ~ In x s) /\ (forall ip s, l_ntop6 l ip = Some s -> ~ In x s) /\
  (forall i s, l_ifname l i = Some s -> ~ In x s).

Lemma addr_no : forall x hide iface a port remote, x < 32 -> lfree x -> (forall i, iface = Some i -> ~ In x i) ->
  ~ In x (spec_addr l hide iface a port remote).
Proof.
  intros x hide iface a port remote Hx (H4 & H6 & Hi) Hif.
  assert (HP : forall p, ~ In x (str ":" ++ dec (be_val p))).
  { intros p. apply in_app4; [cbn; lia|apply dec_no; lia]. }
  destruct a as [|ip p|ip p flow scope|f]; cbn [spec_addr].
  - apply in_app4; [cbn; lia|]. destruct remote; [intros []|apply HP].
  - destruct hide; [apply in_app4; [cbn; lia|apply HP]|]. destruct (l_ntop4 l ip) as [s|] eqn:E; [|intros []]. apply in_app4; [exact (H4 ip s E)|apply HP].
  - destruct hide; [apply in_app4; [cbn; lia|apply HP]|]. destruct (l_ntop6 l ip) as [s|] eqn:E; [|intros []].
    apply in_app4; [cbn; lia|]. apply in_app4; [exact (H6 ip s E)|]. apply in_app4; [|apply in_app4; [cbn; lia|apply HP]].
    destruct iface as [i|].
    + apply in_app4; [cbn; lia|]. apply Hif. reflexivity.
    + destruct (if is_linklocal ip then l_ifname l scope else None) as [i|] eqn:Ei; [|intros []]. apply in_app4; [cbn; lia|].
      destruct (is_linklocal ip); [exact (Hi scope i Ei)|discriminate].
  - intros [].
Qed.

Lemma addr_conv : forall a port (remote : bool) iface, match a with AOther _ => False | _ => True end ->
  addr_text (Some (addr_of l a port)) iface (negb remote) (lc_hide_ip c) None = Some (spec_addr l (remote && lc_hide_ip c) iface a port remote).
Proof.
  intros a port remote iface Ha. destruct a as [|ip p|ip p flow scope|f]; [| | |contradiction]; cbn [addr_of addr_text address_text spec_addr].
  - destruct remote; cbn [negb]; reflexivity.
  - destruct remote; cbn [negb andb]; [destruct (lc_hide_ip c); reflexivity|reflexivity].
  - assert (HX : match l_ntop6 l ip with
      | Some t => match iface, is_linklocal ip, l_ifname l scope with
                  | Some i, _, _ => [91] ++ t ++ [37] ++ i ++ [93; 58] ++ dec (be_val p)
                  | None, true, Some i => [91] ++ t ++ [37] ++ i ++ [93; 58] ++ dec (be_val p)
                  | _, _, _ => [91] ++ t ++ [93; 58] ++ dec (be_val p)
                  end
      | None => []
      end = match l_ntop6 l ip with
        | Some s => str "[" ++ s ++ (match iface, (if is_linklocal ip then l_ifname l scope else None) with
             | Some i, _ | None, Some i => str "%" ++ i
             | None, None => []
             end) ++ str "]" ++ str ":" ++ dec (be_val p)
        | None => []
        end).
    { destruct (l_ntop6 l ip) as [s|]; [|reflexivity]. destruct iface as [i|]; [cbn; rewrite <- ?app_assoc; reflexivity|].
      destruct (is_linklocal ip); [|reflexivity]. destruct (l_ifname l scope); [cbn; rewrite <- ?app_assoc|]; reflexivity. }
    destruct remote; cbn [negb andb]; [destruct (lc_hide_ip c)|]; f_equal; exact HX || reflexivity.
Qed.

(** a conversion: fetched, expanded and specified *)
Record conv_ok (x : N) (d : N) (vals r : list val) : Prop := mk_conv_ok {
  co_ok : exists a s, fetch l c d vals = FArgs a r /\ (forall more, conversion (lc_hide_ip c) d (a ++ more) = Some (s, more)) /\
    (if d =? 37 then s = [37] /\ r = vals else spec_conversion l c d vals = Some (s, r)) /\
    (lfree x -> x < 32 -> Forall (fun v => vfree x TInt v) vals -> ~ In x s)
}.

Ltac letters := unfold letter; cbn [str list_ascii_of_string map]; cbn.

Lemma conv_typed : forall x d ts rest vals, tconv d ts = Some rest -> Forall2 fits ts vals ->
  exists r, Forall2 fits rest r /\ conv_ok x d vals r /\ exists used, vals = used ++ r.
Proof.
  intros x d ts rest vals Ht Hf. unfold tconv in Ht.
  destruct (d =? 37) eqn:E0.
  { injection Ht as <-. exists vals. split; [exact Hf|]. split; [|exists []; reflexivity]. apply N.eqb_eq in E0. subst d. constructor.
    exists [], [37]. split; [reflexivity|]. split; [reflexivity|]. split; [split; reflexivity|]. intros _ Hx _. cbn. lia. }
  assert (HT : forall d' v s r ts', (d' = d) -> vals = v :: r -> Forall2 fits ts' r -> fetch l c d vals = text1 s r ->
     simple_conv d = true -> spec_conversion l c d vals = Some (s, r) ->
     (lfree x -> x < 32 -> Forall (fun v => vfree x TInt v) vals -> ~ In x s) -> 
     exists r, Forall2 fits ts' r /\ conv_ok x d vals r /\ exists used, vals = used ++ r).
  { intros d' v s r ts' _ Ev Hr Hfe Hsi Hsp Hno. exists r. split; [exact Hr|]. split; [|exists [v]; exact Ev]. constructor.
    exists [VText (Text s)], s. split; [exact Hfe|]. split; [|rewrite E0; split; assumption].
    intros more. unfold conversion. rewrite E0, Hsi. reflexivity. }
  destruct (d =? 105) eqn:E1.
  { apply N.eqb_eq in E1. subst d. inversion Hf as [|t v ts' vs Hv Hvs]; subst; [discriminate|].
    destruct t; try discriminate; injection Ht as <-; destruct v; try contradiction;
      (eapply (HT 105 _ (zdec z) vs); [reflexivity|reflexivity|exact Hvs|reflexivity|reflexivity|reflexivity|intros _ Hx _; apply zdec_no; lia]). }
  destruct (d =? 117) eqn:E2.
  { apply N.eqb_eq in E2. subst d. inversion Hf as [|t v ts' vs Hv Hvs]; subst; [discriminate|].
    destruct t; try discriminate; injection Ht as <-; destruct v; try contradiction.
    - cbn in Hv. eapply (HT 117 _ (zdec z) vs); [reflexivity|reflexivity|exact Hvs| |reflexivity|reflexivity|intros _ Hx _; apply zdec_no; lia].
      unfold fetch. cbn. replace (z <? 0)%Z with false by lia. reflexivity.
    - eapply (HT 117 _ (dec n) vs); [reflexivity|reflexivity|exact Hvs|reflexivity|reflexivity|reflexivity|intros _ Hx _; apply dec_no; lia]. }
  destruct ((d =? 85) || (d =? 90)) eqn:E3.
  { inversion Hf as [|t v ts' vs Hv Hvs]; subst; [discriminate|].
    destruct t; try discriminate; injection Ht as <-; destruct v; try contradiction.
    apply orb_true_iff in E3. rewrite !N.eqb_eq in E3.
    destruct E3 as [-> | ->]; (eapply (HT _ _ (dec n) vs); [reflexivity|reflexivity|exact Hvs|reflexivity|reflexivity|reflexivity|intros _ Hx _; apply dec_no; lia]). }
  destruct (d =? 115) eqn:E4.
  { apply N.eqb_eq in E4. subst d. inversion Hf as [|t v ts' vs Hv Hvs]; subst; [discriminate|].
    destruct t; try discriminate; injection Ht as <-; destruct v as [| | |[s|]| | | | |]; try contradiction;
      try (eapply (HT 115 _ s vs); [reflexivity|reflexivity|exact Hvs|reflexivity|reflexivity|reflexivity|intros _ Hx Hall; exact (Forall_inv Hall)]).
    eapply (HT 115 _ str_null vs); [reflexivity|reflexivity|exact Hvs|reflexivity|reflexivity|reflexivity|intros _ Hx Hall; cbn; lia]. }
  destruct (d =? 69) eqn:E5.
  { apply N.eqb_eq in E5. subst d. inversion Hf as [|t v ts' vs Hv Hvs]; subst; [discriminate|].
    destruct t; try discriminate; injection Ht as <-; destruct v as [| | | |[a|]| | | |]; try contradiction.
    eapply (HT 69 _ (if lc_hide_mac c then str_hidden else mac_text a) vs); [reflexivity|reflexivity|exact Hvs|reflexivity|reflexivity|reflexivity|].
    intros _ Hx _. destruct (lc_hide_mac c); [cbn; lia|apply mac_no; lia]. }
  destruct (d =? 80) eqn:E6.
  { apply N.eqb_eq in E6. subst d. inversion Hf as [|t v ts' vs Hv Hvs]; subst; [discriminate|].
    destruct t; try discriminate; injection Ht as <-; destruct v as [| | | | |p| | |]; try contradiction.
    eapply (HT 80 _ (peer_text p) vs); [reflexivity|reflexivity|exact Hvs|reflexivity|reflexivity|reflexivity|].
    intros _ Hx Hall. pose proof (Forall_inv Hall) as Hp. cbn [vfree] in Hp.
    destruct p as [[[name|] [key|]]|]; cbn [peer_text]; try (cbn; lia); repeat apply in_app4; try exact Hp; try (cbn; lia). apply describe_no. lia. }
  destruct (d =? 72) eqn:E7.
  { apply N.eqb_eq in E7. subst d. inversion Hf as [|t v ts' vs Hv Hvs]; subst; [discriminate|].
    destruct t; try discriminate. inversion Hvs as [|t2 v2 ts2 vs2 Hv2 Hvs2]; subst; [discriminate|]. destruct t2; try discriminate. injection Ht as <-.
    destruct v as [| | | | | |d| |]; try contradiction. destruct v2 as [| |n| | | | | |]; try contradiction. cbn in Hv, Hv2. subst n.
    exists vs2. split; [exact Hvs2|]. split; [|exists [VlData d; VlLong 32]; reflexivity]. constructor.
    exists [VHex (firstn 32 d)], (flat_map hex (firstn 32 d)).
    assert (HF : fetch l c 72 (VlData d :: VlLong 32 :: vs2) = FArgs [VHex (firstn 32 d)] vs2).
    { unfold fetch. cbn [N.eqb Pos.eqb orb]. replace (32 <=? N.of_nat (List.length d)) with true by lia. reflexivity. }
    split; [exact HF|]. split; [reflexivity|]. split; [reflexivity|]. intros _ Hx _. apply hexes_no. lia. }
  assert (HA : forall d' a port vs ts' (remote : bool), d = d' -> vals = VlAddr (Some a) port :: vs -> Forall2 fits ts' vs ->
     match a with AOther _ => False | _ => True end -> (d' = 73 /\ remote = true) \/ (d' = 66 /\ remote = false) ->
     exists r, Forall2 fits ts' r /\ conv_ok x d vals r /\ exists used, vals = used ++ r).
  { intros d' a port vs ts' remote <- Ev Hvs Ha Hd. exists vs. split; [exact Hvs|]. split; [|exists [VlAddr (Some a) port]; exact Ev]. constructor. subst vals.
    exists [VAddr (Some (addr_of l a port)) None], (spec_addr l (remote && lc_hide_ip c) None a port remote).
    pose proof (addr_conv a port remote None Ha) as HC.
    destruct Hd as [(-> & ->)|(-> & ->)].
    - split; [reflexivity|]. split; [|split].
      + intros more. unfold conversion. cbn [N.eqb Pos.eqb orb app negb simple_conv existsb]. cbn [negb] in HC. rewrite HC. reflexivity.
      + reflexivity.
      + intros HL Hx _. apply addr_no; [lia|exact HL|discriminate].
    - split; [reflexivity|]. split; [|split].
      + intros more. unfold conversion. cbn [N.eqb Pos.eqb orb app negb simple_conv existsb]. cbn [negb] in HC. rewrite HC. reflexivity.
      + reflexivity.
      + intros HL Hx _. apply addr_no; [lia|exact HL|discriminate]. }
  destruct (d =? 73) eqn:E8.
  { inversion Hf as [|t v ts' vs Hv Hvs]; subst; [discriminate|]. destruct t; try discriminate. injection Ht as <-.
    destruct v as [| | | | | | |[a|] port|]; try contradiction. eapply (HA 73 a port vs ts' true); [lia|reflexivity|exact Hvs|exact Hv|left; auto]. }
  destruct (d =? 66) eqn:E9.
  { inversion Hf as [|t v ts' vs Hv Hvs]; subst; [discriminate|]. destruct t; try discriminate. injection Ht as <-.
    destruct v as [| | | | | | |[a|] port|]; try contradiction. eapply (HA 66 a port vs ts' false); [lia|reflexivity|exact Hvs|exact Hv|right; auto]. }
  destruct (d =? 76) eqn:E10; [|discriminate].
  apply N.eqb_eq in E10. subst d. inversion Hf as [|t v ts' vs Hv Hvs]; subst; [discriminate|]. destruct t; try discriminate.
  inversion Hvs as [|t2 v2 ts2 vs2 Hv2 Hvs2]; subst; [discriminate|]. destruct t2; try discriminate. injection Ht as <-.
  destruct v as [| | | | | | |[a|] port|]; try contradiction. destruct v2 as [| | |[i|]| | | | |]; try contradiction.
  exists vs2. split; [exact Hvs2|]. split; [|exists [VlAddr (Some a) port; VlStr (Some i)]; reflexivity]. constructor.
  exists [VAddrIf (Some (addr_of l a port)) (Some i) None], (spec_addr l false (Some i) a port false).
  pose proof (addr_conv a port false (Some i) Hv) as HC. cbn [negb andb] in HC.
  split; [reflexivity|]. split; [|split].
  - intros more. unfold conversion. cbn [N.eqb Pos.eqb orb app negb simple_conv existsb]. rewrite HC. reflexivity.
  - reflexivity.
  - intros HL Hx Hall. apply addr_no; [lia|exact HL|]. intros i' E. injection E as <-. exact (Forall_inv (Forall_inv_tail Hall)).
Qed.

(** *** All of them *)
Lemma letter_percent : forall x, letter x "%" = (x =? 37).
Proof. reflexivity. Qed.

Lemma typed_ok : forall x n fmt ts vals, (List.length fmt <= n)%nat -> typed fmt ts = true -> Forall2 fits ts vals ->
  exists args text, fetch_all l c fmt vals = Some args /\ expand (lc_hide_ip c) fmt args = Some text /\ message l c fmt vals = Some text /\
    ((x = 0 \/ x = 10) -> lfree x -> Forall (fun v => vfree x TInt v) vals -> ~ In x text).
Proof.
  intros x n. induction n as [|n IH]; intros fmt ts vals Hn Ht Hf.
  { destruct fmt; [|cbn in Hn; lia]. exists [], []. repeat split. intros _ _ _ []. }
  destruct fmt as [|y fmt]; [exists [], []; repeat split; intros _ _ _ []|].
  cbn [typed] in Ht. cbn [fetch_all message]. rewrite letter_percent. destruct (y =? 37) eqn:Ey; cbn [negb] in Ht |- *.
  - destruct fmt as [|d fmt]; [discriminate|]. destruct (tconv d ts) as [rest|] eqn:Ec; [|discriminate].
    destruct (conv_typed x d ts rest vals Ec Hf) as (r & Hr & [(a & s & Hfe & Hco & Hsp & Hno)] & used & Eu).
    destruct (IH fmt rest r) as (args & text & H1 & H2 & H3 & H4); [cbn in Hn; lia|exact Ht|exact Hr|].
    rewrite Hfe, H1. cbn [option_map]. exists (a ++ args), (s ++ text). split; [reflexivity|]. split; [|split].
    + cbn [expand]. rewrite Ey. cbn [negb]. rewrite Hco, H2. reflexivity.
    + rewrite letter_percent. destruct (d =? 37).
      * destruct Hsp as (-> & ->). rewrite H3. reflexivity.
      * rewrite Hsp, H3. reflexivity.
    + intros Hx HL Hall. apply in_app4; [apply Hno; [exact HL|lia|exact Hall]|]. apply H4; [exact Hx|exact HL|]. rewrite Eu in Hall. apply Forall_app in Hall. tauto.
  - apply andb_true_iff in Ht. destruct Ht as (Hy & Ht). 
    destruct (IH fmt ts vals) as (args & text & H1 & H2 & H3 & H4); [cbn in Hn; lia|exact Ht|exact Hf|].
    exists args, (y :: text). split; [exact H1|]. split; [|split].
    + cbn [expand]. rewrite Ey. cbn [negb]. rewrite H2. reflexivity.
    + rewrite H3. reflexivity.
    + intros Hx HL Hall [E|Hi]; [lia|]. exact (H4 Hx HL Hall Hi).
Qed.

(** *** Hidden addresses *)
Lemma alike_conv : forall d ts rest vals vals', tconv d ts = Some rest -> Forall2 fits ts vals -> Forall2 fits ts vals' -> alike_all c ts vals vals' ->
  d <> 37 -> exists s r r', spec_conversion l c d vals = Some (s, r) /\ spec_conversion l c d vals' = Some (s, r') /\ alike_all c rest r r' /\
    Forall2 fits rest r /\ Forall2 fits rest r'.
Proof.
  intros d ts rest vals vals' Ht Hf Hf' Ha Hd. unfold tconv in Ht. replace (d =? 37) with false in Ht by lia.
  assert (HE : forall t ts' v vs v' vs', ts = t :: ts' -> vals = v :: vs -> vals' = v' :: vs' -> rest = ts' -> v = v' ->
    (forall r, exists s, spec_conversion l c d (v :: r) = Some (s, r) /\ forall r', spec_conversion l c d (v :: r') = Some (s, r')) ->
    exists s r r', spec_conversion l c d vals = Some (s, r) /\ spec_conversion l c d vals' = Some (s, r') /\ alike_all c rest r r' /\
    Forall2 fits rest r /\ Forall2 fits rest r').
  { intros t ts' v vs v' vs' -> -> -> -> <- HS. destruct (HS vs) as (s & E & E'). exists s, vs, vs'. split; [exact E|]. split; [apply E'|].
    split; [apply Ha|]. inversion Hf; inversion Hf'; subst; auto. }
  destruct ts as [|t ts].
  { destruct (d =? 105); [discriminate|]. destruct (d =? 117); [discriminate|]. destruct ((d =? 85) || (d =? 90)); [discriminate|].
    destruct (d =? 115); [discriminate|]. destruct (d =? 69); [discriminate|]. destruct (d =? 80); [discriminate|]. destruct (d =? 72); [discriminate|].
    destruct (d =? 73); [discriminate|]. destruct (d =? 66); [discriminate|]. destruct (d =? 76); discriminate. }
  inversion Hf as [|t0 v ts0 vs Hv Hvs]; subst. inversion Hf' as [|t0 v' ts0 vs' Hv' Hvs']; subst. destruct Ha as (Hal & Hall).
  destruct (d =? 105) eqn:E1.
  { apply N.eqb_eq in E1. subst d.
    assert (v = v') as <- by (destruct Hal as [Hal|Hal]; [exact Hal|]; destruct t; try discriminate; contradiction).
    eapply HE; try reflexivity; destruct t; try discriminate; try (injection Ht as <-; reflexivity); destruct v; try contradiction; intros r; eexists; split; reflexivity. }
  destruct (d =? 117) eqn:E2.
  { apply N.eqb_eq in E2. subst d.
    assert (v = v') as <- by (destruct Hal as [Hal|Hal]; [exact Hal|]; destruct t; try discriminate; contradiction).
    eapply HE; try reflexivity; destruct t; try discriminate; try (injection Ht as <-; reflexivity); destruct v; try contradiction; intros r; eexists; split; reflexivity. }
  destruct ((d =? 85) || (d =? 90)) eqn:E3.
  { assert (v = v') as <- by (destruct Hal as [Hal|Hal]; [exact Hal|]; destruct t; try discriminate; contradiction).
    apply orb_true_iff in E3. rewrite !N.eqb_eq in E3.
    assert (HZ : exists n, v = VlLong n /\ rest = ts) by (destruct t; try discriminate; destruct v; try contradiction; injection Ht as <-; eauto).
    destruct HZ as (n & -> & ->).
    exists (dec n), vs, vs'. destruct E3 as [-> | ->].
    - assert (HQ : forall r, spec_conversion l c 85 (VlLong n :: r) = Some (dec n, r)) by reflexivity.
      rewrite !HQ. auto.
    - assert (HQ : forall r, spec_conversion l c 90 (VlLong n :: r) = Some (dec n, r)) by reflexivity.
      rewrite !HQ. auto. }
  destruct (d =? 115) eqn:E4.
  { apply N.eqb_eq in E4. subst d.
    assert (v = v') as <- by (destruct Hal as [Hal|Hal]; [exact Hal|]; destruct t; try discriminate; contradiction).
    eapply HE; try reflexivity; destruct t; try discriminate; try (injection Ht as <-; reflexivity); destruct v as [| | |[s|]| | | | |]; try contradiction; intros r; eexists; split; reflexivity. }
  destruct (d =? 69) eqn:E5.
  { apply N.eqb_eq in E5. subst d. destruct t; try discriminate. injection Ht as <-.
    destruct v as [| | | |[a|]| | | |]; try contradiction. destruct v' as [| | | |[a'|]| | | |]; try contradiction.
    exists (if lc_hide_mac c then str "[hidden]" else mac_text a), vs, vs'. split; [reflexivity|]. split; [|auto].
    destruct Hal as [E|Hal]; [injection E as <-; reflexivity|]. cbn [alike] in Hal. unfold spec_conversion. rewrite Hal. reflexivity. }
  destruct (d =? 80) eqn:E6.
  { apply N.eqb_eq in E6. subst d.
    assert (v = v') as <- by (destruct Hal as [Hal|Hal]; [exact Hal|]; destruct t; try discriminate; contradiction).
    eapply HE; try reflexivity; destruct t; try discriminate; try (injection Ht as <-; reflexivity); destruct v; try contradiction; intros r; eexists; split; reflexivity. }
  destruct (d =? 72) eqn:E7.
  { apply N.eqb_eq in E7. subst d. destruct t; try discriminate. destruct ts as [|t2 ts]; [discriminate|]. destruct t2; try discriminate. injection Ht as <-.
    inversion Hvs as [|t0 v2 ts0 vs2 Hv2 Hvs2]; subst. inversion Hvs' as [|t0 v2' ts0 vs2' Hv2' Hvs2']; subst. destruct Hall as (Hal2 & Hall).
    assert (v = v') as <- by (destruct Hal as [Hal|Hal]; [exact Hal|contradiction]).
    assert (v2 = v2') as <- by (destruct Hal2 as [Hal2|Hal2]; [exact Hal2|contradiction]).
    destruct v as [| | | | | |d| |]; try contradiction. destruct v2 as [| |n| | | | | |]; try contradiction.
    eexists. exists vs2, vs2'. split; [reflexivity|]. split; [reflexivity|]. auto. }
  destruct (d =? 73) eqn:E8.
  { apply N.eqb_eq in E8. subst d. destruct t; try discriminate. injection Ht as <-.
    destruct v as [| | | | | | |[a|] p|]; try contradiction. destruct v' as [| | | | | | |[a'|] p'|]; try contradiction.
    exists (spec_addr l (lc_hide_ip c) None a p true), vs, vs'. split; [reflexivity|]. split; [|auto].
    destruct Hal as [E|Hal]; [injection E as <- <-; reflexivity|]. cbn [alike] in Hal. destruct Hal as (Hh & Hn & Hp).
    assert (HQ : forall a0 p0 q, host_port a0 = Some q -> spec_addr l (lc_hide_ip c) None a0 p0 true = str "[hidden]" ++ str ":" ++ dec (be_val q)).
    { intros a0 p0 q Hq. rewrite Hh. destruct a0; try discriminate; injection Hq as <-; reflexivity. }
    destruct (host_port a) as [q|] eqn:Eq; [|contradiction].
    change (Some (spec_addr l (lc_hide_ip c) None a' p' true, vs') = Some (spec_addr l (lc_hide_ip c) None a p true, vs')).
    rewrite (HQ a p q Eq), (HQ a' p' q (eq_sym Hp)). reflexivity. }
  destruct (d =? 66) eqn:E9.
  { apply N.eqb_eq in E9. subst d. destruct t; try discriminate. injection Ht as <-.
    assert (v = v') as <- by (destruct Hal as [Hal|Hal]; [exact Hal|contradiction]).
    destruct v as [| | | | | | |[a|] p|]; try contradiction. eexists. exists vs, vs'. split; [reflexivity|]. split; [reflexivity|]. auto. }
  destruct (d =? 76) eqn:E10; [|discriminate].
  apply N.eqb_eq in E10. subst d. destruct t; try discriminate. destruct ts as [|t2 ts]; [discriminate|]. destruct t2; try discriminate. injection Ht as <-.
  inversion Hvs as [|t0 v2 ts0 vs2 Hv2 Hvs2]; subst. inversion Hvs' as [|t0 v2' ts0 vs2' Hv2' Hvs2']; subst. destruct Hall as (Hal2 & Hall).
  assert (v = v') as <- by (destruct Hal as [Hal|Hal]; [exact Hal|contradiction]).
  assert (v2 = v2') as <- by (destruct Hal2 as [Hal2|Hal2]; [exact Hal2|contradiction]).
  destruct v as [| | | | | | |[a|] p|]; try contradiction. destruct v2 as [| | |[i|]| | | | |]; try contradiction.
  eexists. exists vs2, vs2'. split; [reflexivity|]. split; [reflexivity|]. auto.
Qed.

Lemma alike_message : forall n fmt ts vals vals', (List.length fmt <= n)%nat -> typed fmt ts = true -> Forall2 fits ts vals -> Forall2 fits ts vals' ->
  alike_all c ts vals vals' -> message l c fmt vals = message l c fmt vals'.
Proof.
  induction n as [|n IH]; intros fmt ts vals vals' Hn Ht Hf Hf' Ha.
  { destruct fmt; [reflexivity|cbn in Hn; lia]. }
  destruct fmt as [|y fmt]; [reflexivity|]. cbn [typed] in Ht. cbn [message]. rewrite letter_percent. destruct (y =? 37) eqn:Ey; cbn [negb] in Ht |- *.
  - destruct fmt as [|d fmt]; [reflexivity|]. destruct (tconv d ts) as [rest|] eqn:Ec; [|discriminate]. rewrite letter_percent.
    destruct (d =? 37) eqn:Ed.
    + unfold tconv in Ec. rewrite Ed in Ec. injection Ec as <-. rewrite (IH fmt ts vals vals'); [reflexivity|cbn in Hn; lia|assumption..].
    + destruct (alike_conv d ts rest vals vals' Ec Hf Hf' Ha) as (s & r & r' & -> & -> & H1 & H2 & H3); [lia|].
      rewrite (IH fmt rest r r'); [reflexivity|cbn in Hn; lia|assumption..].
  - apply andb_true_iff in Ht. destruct Ht as (_ & Ht). rewrite (IH fmt ts vals vals'); [reflexivity|cbn in Hn; lia|assumption..].
Qed.
End Conv.
