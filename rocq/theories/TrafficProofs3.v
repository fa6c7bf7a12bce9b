(** Proofs for C73: destinations, reception *)
From Verif Require Import Base BufferModel TrafficModel TrafficSpec TrafficProofs TrafficProofs2.

Section Env.
Context (E : environment) (C : config).

Lemma find_assoc : forall a s, eth_find a s = assoc a (n_eth s).
Proof.
  intros a s. unfold eth_find. induction (n_eth s) as [|[b o] l IH]; cbn [List.find assoc]; [reflexivity|]. cbn [fst]. unfold addr_eqb, same in *. destruct (list_eq_dec N.eq_dec b a); [reflexivity | exact IH].
Qed.
Lemma unicast_is : forall a, is_unicast a = unicast a.
Proof.
  intros [|b a]; [reflexivity|]. unfold is_unicast, unicast. cbn [nth]. destruct b as [|[b|b|]]; reflexivity.
Qed.
Lemma assoc_filter : forall a b l, same b a = false -> assoc a (filter (fun e => negb (addr_eqb (fst e) b)) l) = assoc a l.
Proof.
  intros a b l H. induction l as [|[c o] l IH]; cbn [filter assoc fst]; [reflexivity|]. unfold addr_eqb, same in *. destruct (list_eq_dec N.eq_dec c b) as [->|Hc]; cbn [negb].
  - destruct (list_eq_dec N.eq_dec b a); [discriminate H | exact IH].
  - cbn [assoc]. unfold same. destruct (list_eq_dec N.eq_dec c a); [reflexivity | exact IH].
Qed.

Definition learned (who : option N) (a : bytes) (s : node) : node := with_eth ((a, who) :: filter (fun e => negb (addr_eqb (fst e) a)) (n_eth s)) s.
Lemma learned_acct : forall P who a s, wf s -> (forall p, who = Some p -> exists q, In q (n_peers s) /\ p_id q = p /\ est q = true) -> acct P s [] (learned who a s).
Proof.
  intros P who a s W H. pose proof (acct_refl P s W) as R. destruct W as [a0 b c d e]. destruct R as [_ r2 r3 r4 r5 r6]. constructor; try assumption. constructor; try assumption.
  intros a1 p1 X. unfold learned, with_eth in X. cbn [n_eth] in X. destruct X as [X|X].
  - injection X as <- ->. exact (H p1 eq_refl).
  - apply filter_In in X. exact (e a1 p1 (proj1 X)).
Qed.
Lemma eth_add_ok : forall who a s, wf s -> (forall p, who = Some p -> exists q, get p s = Ok q /\ est q = true) -> eth_add who a s = Ok (learned who a s).
Proof.
  intros who a s W H. unfold eth_add. destruct who as [p|]; [|reflexivity]. destruct (H p eq_refl) as (q & G & Es). rewrite G. cbn [bind].
  replace (match p_state q with Established => true | _ => false end) with (est q) by reflexivity. rewrite Es. reflexivity.
Qed.
Lemma learned_assoc : forall who a b s, assoc b (n_eth (learned who a s)) = if same a b then Some who else assoc b (n_eth s).
Proof.
  intros who a b s. unfold learned, with_eth. cbn [n_eth assoc]. destruct (same a b) eqn:X; [reflexivity|]. apply assoc_filter, X.
Qed.

(** Recipients *)
Lemma find_self : forall s q, wf s -> In q (n_peers s) -> find (p_id q) s = Some q.
Proof.
  intros s q W Hq. destruct (get_ok s (p_id q)) as (q' & G & A & B); [apply in_map, Hq|]. rewrite (get_unique s (p_id q) q' q W G Hq eq_refl) at 2. apply find_get, G.
Qed.
Lemma wanted_all : forall s source, wf s -> wanted s source (ids s) = but source (connected s).
Proof.
  intros s source W. unfold wanted, but, connected, ids.
  assert (K : forall l, incl l (n_peers s) ->
    filter (fun p => (negb (opt_is source p) && match find p s with Some q => est q | None => false end)%bool) (map p_id l) =
    filter (fun p => match source with Some q => negb (N.eqb p q) | None => true end) (map p_id (filter (fun q => match p_state q with Established => true | _ => false end) l))).
  { induction l as [|q l IH]; intros Hi; [reflexivity|]. cbn [map filter]. rewrite (find_self s q W (Hi q (or_introl eq_refl))). fold (est q).
    assert (Hi' : incl l (n_peers s)) by (intros x Hx; apply Hi; right; exact Hx). rewrite (IH Hi').
    replace (opt_is source (p_id q)) with (negb (match source with Some x => negb (N.eqb (p_id q) x) | None => true end)) by (destruct source as [x|]; cbn [opt_is]; [rewrite N.eqb_sym, negb_involutive|]; reflexivity).
    rewrite negb_involutive. destruct (est q); cbn [map filter].
    - rewrite andb_true_r. reflexivity.
    - rewrite andb_false_r. reflexivity. }
  apply K. intros x Hx; exact Hx.
Qed.
Lemma filter_single : forall l d, NoDup l -> filter (fun p => N.eqb p d) l = if in_dec N.eq_dec d l then [d] else [].
Proof.
  induction l as [|x l IH]; intros d Nd; [reflexivity|]. inversion Nd as [|? ? Hn Nd']; subst. cbn [filter]. rewrite (IH d Nd'). destruct (N.eqb_spec x d) as [->|Hx].
  - destruct (in_dec N.eq_dec d l); [contradiction|]. destruct (in_dec N.eq_dec d (d :: l)) as [_|X]; [reflexivity | exfalso; apply X; left; reflexivity].
  - destruct (in_dec N.eq_dec d l) as [X|X], (in_dec N.eq_dec d (x :: l)) as [Y|Y]; try reflexivity.
    + exfalso. apply Y. right. exact X.
    + destruct Y as [Y|Y]; contradiction.
Qed.
Lemma connected_in : forall s q, wf s -> In q (n_peers s) -> (In (p_id q) (connected s) <-> est q = true).
Proof.
  intros s q W Hq. unfold connected. split; intros H.
  - apply in_map_iff in H. destruct H as (q' & A & B). apply filter_In in B. destruct B as [B B']. rewrite (nodup_id (n_peers s) q q' (wf_nodup s W) Hq B (eq_sym A)). exact B'.
  - apply in_map_iff. exists q. split; [reflexivity|]. apply filter_In. split; [exact Hq | exact H].
Qed.
Lemma nodup_but : forall s source, wf s -> NoDup (but source (connected s)).
Proof.
  intros s source W. rewrite <- wanted_all by exact W. apply NoDup_filter. exact (wf_nodup s W).
Qed.
Lemma one_recipient : forall s source q, wf s -> In q (n_peers s) ->
  filter (fun p => N.eqb p (p_id q)) (but source (connected s)) = if opt_is source (p_id q) then [] else if est q then [p_id q] else [].
Proof.
  intros s source q W Hq. rewrite filter_single by (apply nodup_but, W). pose proof (connected_in s q W Hq) as Ci.
  destruct (in_dec N.eq_dec (p_id q) (but source (connected s))) as [X|X]; unfold but in X; rewrite filter_In in X.
  - destruct X as [X1 X2]. apply Ci in X1. rewrite X1. destruct source as [y|]; cbn [opt_is]; [|reflexivity]. rewrite N.eqb_sym. destruct (N.eqb (p_id q) y); [discriminate X2 | reflexivity].
  - destruct (opt_is source (p_id q)) eqn:So; [reflexivity|]. destruct (est q) eqn:Es; [|reflexivity]. exfalso. apply X. split; [apply Ci; reflexivity|]. destruct source as [y|]; [|reflexivity]. cbn [opt_is] in So. rewrite N.eqb_sym, So. reflexivity.
Qed.

(** [s0]: the state before the packet was seen *)
Definition like (source : option N) (s0 s : node) : Prop :=
  wf s0 /\ ids s = ids s0 /\ (forall p q, opt_is source p = false -> get p s = Ok q -> find p s0 = Some q /\ In q (n_peers s0)).
Lemma all_ok : forall source f s0 s, wf s -> like source s0 s ->
  exists s' evs, send_all E (map p_id (n_peers s)) source f s = Ok (s', evs) /\ acct (fun _ => True) s evs s' /\
    map fst (fates evs) = but source (connected s0) /\ Forall (about E s0 f) evs.
Proof.
  intros source f s0 s W (W0 & Hi & Hu). destruct (send_all_ok E (map p_id (n_peers s)) source f s0 s W (wf_nodup s W)) as (s' & evs & A & B & D & F).
  - intros x Hx. exact Hx.
  - intros p q _ So G. exact (Hu p q So G).
  - exists s', evs. split; [exact A|]. split; [apply (acct_weaken (fun p => In p (map p_id (n_peers s)))); [auto | exact B]|]. split; [|exact F].
    rewrite D. change (map p_id (n_peers s)) with (ids s). rewrite Hi. apply wanted_all, W0.
Qed.
Lemma single_ok : forall source d f s0 s, wf s -> like source s0 s -> In d (ids s) -> opt_is source d = false ->
  exists s' evs, protocol_send E d f s = Ok (s', evs) /\ acct (fun _ => True) s evs s' /\
    map fst (fates evs) = filter (fun p => N.eqb p d) (but source (connected s0)) /\ Forall (about E s0 f) evs.
Proof.
  intros source d f s0 s W (W0 & Hi & Hu) Hd So. destruct (get_ok s d Hd) as (q & G & Hq & Hid). destruct (Hu d q So G) as [F0 I0].
  destruct (protocol_send_ok E d f s q W G Hq Hid) as (s' & evs & A & B & D & F). exists s', evs. split; [exact A|]. split; [apply (acct_weaken (fun p => p = d)); [auto | exact B]|]. split.
  - rewrite D, <- Hid, (one_recipient s0 source q W0 I0), Hid, So. reflexivity.
  - apply (Forall_impl _ (P := about1 E q f)); [|exact F]. intros e He. exact (about1_about E q s0 f e I0 He).
Qed.

Lemma like_refl : forall source s, wf s -> like source s s.
Proof.
  intros source s W. split; [exact W|]. split; [reflexivity|]. intros p q _ G. split; [exact (find_get p s q G)|]. apply find_get in G. unfold find in G. apply List.find_some in G. apply G.
Qed.
(** The part after learning *)
Lemma tap_ok : forall source f s0 s, wf s -> like source s0 s -> owner s0 source f (firstn 6 f) = assoc (firstn 6 f) (n_eth s) -> c_tap C = true -> Nat.ltb (length f) 14 = false ->
  exists s' evs, (if negb (is_unicast (dest_address f)) then send_all E (map p_id (n_peers s)) source f s
        else match eth_find (dest_address f) s with
        | None => send_all E (map p_id (n_peers s)) source f s
        | Some None => Ok (s, [])
        | Some (Some d) => if opt_is source d then Ok (s, []) else protocol_send E d f s
        end) = Ok (s', evs) /\ acct (fun _ => True) s evs s' /\ map fst (fates evs) = recipients C s0 source None f /\ Forall (about E s0 f) evs.
Proof.
  intros source f s0 s W Hl Ho Tap Len. unfold recipients. rewrite Tap, Len. cbn [negb]. cbv zeta. rewrite unicast_is. unfold dest_address. destruct (unicast (firstn 6 f)); cbn [negb].
  - rewrite find_assoc, Ho. destruct (assoc (firstn 6 f) (n_eth s)) as [[d|]|] eqn:As.
    + assert (Hd : exists q, In q (n_peers s) /\ p_id q = d).
      { assert (X : In (firstn 6 f, Some d) (n_eth s)).
        { revert As. clear. induction (n_eth s) as [|[b o] l IH]; cbn [assoc]; [discriminate|]. unfold same. destruct (list_eq_dec N.eq_dec b (firstn 6 f)) as [->|_]; intros H; [injection H as ->; left; reflexivity | right; exact (IH H)]. }
        destruct (wf_eth s W _ _ X) as (q & A & B & _). exists q. auto. }
      destruct Hd as (q & Hq & Hid). assert (Hd : In d (ids s)) by (rewrite <- Hid; apply in_map, Hq).
      destruct (opt_is source d) eqn:So.
      * exists s, []. split; [reflexivity|]. split; [apply acct_refl, W|]. split; [|constructor]. cbn [fates flat_map map].
        destruct Hl as (W0 & Hi & Hu). assert (Hd0 : In d (ids s0)) by (rewrite <- Hi; exact Hd). destruct (get_ok s0 d Hd0) as (q0 & _ & Hq0 & Hid0).
        rewrite <- Hid0, (one_recipient s0 source q0 W0 Hq0), Hid0, So. reflexivity.
      * exact (single_ok source d f s0 s W Hl Hd So).
    + exists s, []. split; [reflexivity|]. split; [apply acct_refl, W|]. split; [reflexivity | constructor].
    + exact (all_ok source f s0 s W Hl).
  - exact (all_ok source f s0 s W Hl).
Qed.

Lemma iface_ok : forall dest f s, wf s -> (forall d, dest = Some d -> In d (ids s)) ->
  exists s' evs, send_data E C f None dest s = Ok (s', evs) /\ acct (fun _ => True) s evs s' /\ map fst (fates evs) = recipients C s None dest f /\ Forall (about E s f) evs.
Proof.
  intros dest f s W Hd. unfold send_data. destruct dest as [d|].
  - exact (single_ok None d f s s W (like_refl None s W) (Hd d eq_refl) eq_refl).
  - destruct (c_tap C) eqn:Tap; cbn [negb].
    + destruct (Nat.ltb (length f) ETH_HEADER) eqn:Len.
      * exists s, []. split; [reflexivity|]. split; [apply acct_refl, W|]. split; [|constructor]. unfold recipients. rewrite Tap. cbn [negb]. cbv zeta. change (Nat.ltb (length f) 14) with (Nat.ltb (length f) ETH_HEADER). rewrite Len. reflexivity.
      * rewrite unicast_is. destruct (unicast (source_address f)) eqn:Us.
        -- rewrite eth_add_ok by (try exact W; discriminate). cbn [bind].
           assert (A0 : acct (fun _ => True) s [] (learned None (source_address f) s)) by (apply learned_acct; [exact W | discriminate]).
           destruct (tap_ok None f s (learned None (source_address f) s) (a_wf _ _ _ _ A0)) as (s' & evs & A & B & D & F).
           ++ destruct (like_refl None s W) as (L1 & L2 & L3). split; [exact L1|]. split; [exact L2|]. exact L3.
           ++ rewrite learned_assoc. unfold owner. cbv zeta. change (firstn 6 (skipn 6 f)) with (source_address f). rewrite Us. reflexivity.
           ++ exact Tap.
           ++ exact Len.
           ++ exists s', evs. split; [exact A|]. split; [|auto]. change evs with ([] ++ evs). exact (acct_trans _ _ _ _ _ _ A0 B).
        -- cbn [bind]. apply (tap_ok None f s s W (like_refl None s W)); [|exact Tap | exact Len]. unfold owner. cbv zeta. change (firstn 6 (skipn 6 f)) with (source_address f). rewrite Us. reflexivity.
    + unfold recipients. rewrite Tap. cbn [negb]. cbv zeta. exact (all_ok None f s s W (like_refl None s W)).
Qed.

(** Reception *)
Lemma like_other : forall p s0 s evs, wf s0 -> acct (fun x => x = p) s0 evs s -> like (Some p) s0 s.
Proof.
  intros p s0 s evs W A. split; [exact W|]. split; [exact (a_ids _ _ _ _ A)|]. intros x q So G. cbn [opt_is] in So. apply N.eqb_neq in So.
  assert (Hx : In x (ids s0)). { rewrite <- (a_ids _ _ _ _ A). apply find_get in G. unfold find in G. apply List.find_some in G. destruct G as [G1 G2]. apply N.eqb_eq in G2. rewrite <- G2. apply in_map, G1. }
  destruct (get_ok s0 x Hx) as (q0 & G0 & Hq0 & Hid0). assert (X : get x s = Ok q0) by (apply (others_find x s0 s evs (fun y => y = p) q0 A W); [congruence | exact G0]).
  assert (q = q0) by congruence. subst q0. split; [exact (find_get _ _ _ G0) | exact Hq0].
Qed.
Lemma like_trans : forall source s0 s1 s2, like source s0 s1 -> like source s1 s2 -> like source s0 s2.
Proof.
  intros source s0 s1 s2 (A & B & D) (A' & B' & D'). split; [exact A|]. split; [congruence|]. intros p q So G. destruct (D' p q So G) as [X _]. apply (D p q So). unfold get. rewrite X. reflexivity.
Qed.

Lemma handle_receive_ok : forall p f ro s0 s q, wf s -> like (Some p) s0 s -> n_eth s = n_eth s0 -> get p s = Ok q -> In q (n_peers s) -> p_id q = p -> est q = true -> f <> [] ->
  exists s' given fwd, handle_receive E C p f ro s = Ok (s', given ++ fwd) /\ acct (fun _ => True) s (given ++ fwd) s' /\
    match p_iface q with
        | Some i =>
            if acceptable C f then
              (exists r, given = [Write p i f ro r]) /\ Forall (about E s0 f) fwd /\
              map fst (fates fwd) = (if (c_tap C && c_forward C)%bool then recipients C s0 (Some p) None f else [])
            else given = [] /\ fwd = []
        | None => given = [] /\ fwd = []
    end.
Proof.
  intros p f ro s0 s q W Hl He G Hq Hid Es Hf. unfold handle_receive. rewrite G. cbn [bind].
  assert (Hp : In p (ids s)) by (rewrite <- Hid; apply in_map, Hq).
  destruct (p_iface q) as [i|]; [|exists s, [], []; split; [reflexivity|]; split; [apply acct_refl, W | auto]].
  assert (Hne : nonempty f = true) by (destruct f; [contradiction | reflexivity]).
  unfold acceptable. rewrite Hne. cbn [andb]. change ETH_HEADER with 14.
  replace (Nat.leb 14 (length f)) with (negb (Nat.ltb (length f) 14)) by (destruct (Nat.ltb_spec (length f) 14), (Nat.leb_spec 14 (length f)); try reflexivity; lia).
  rewrite <- negb_andb. destruct (c_tap C && Nat.ltb (length f) 14)%bool eqn:Tr; cbn [negb].
  { exists s, [], []. split; [reflexivity|]. split; [apply acct_refl, W | auto]. }
  assert (Hg : forall x, Some p = Some x -> exists q, get x s = Ok q /\ est q = true) by (intros x Hx; injection Hx as <-; exists q; auto).
  set (s1 := if (c_tap C && is_unicast (source_address f))%bool then learned (Some p) (source_address f) s else s).
  assert (E1 : (if (c_tap C && is_unicast (source_address f))%bool then eth_add (Some p) (source_address f) s else Ok s) = Ok s1).
  { unfold s1. destruct (c_tap C && is_unicast (source_address f))%bool; [apply eth_add_ok; assumption | reflexivity]. }
  rewrite E1. cbn [bind].
  assert (A1 : acct (fun x => x = p) s [] s1).
  { unfold s1. destruct (c_tap C && is_unicast (source_address f))%bool; [|apply acct_refl, W]. apply learned_acct; [exact W|]. intros x Hx. injection Hx as <-. exists q. auto. }
  assert (N1 : N.of_nat (length f) <> 0%N) by (destruct f; [contradiction | cbn [length]; lia]).
  assert (Hp1 : In p (ids s1)) by (rewrite (a_ids _ _ _ _ A1); exact Hp).
  rewrite (stats_add_ok STAT_RX p _ s1 (a_wf _ _ _ _ A1) Hp1 N1). cbn [bind].
  set (s2 := counted STAT_RX p (N.of_nat (length f)) s1).
  assert (W2 : wf s2) by (apply wf_counted, A1).
  assert (Hp2 : In p (ids s2)) by (unfold s2; rewrite counted_ids; exact Hp1).
  set (s3 := if ro then counted STAT_RX_REORDERED p (N.of_nat (length f)) s2 else s2).
  assert (E3 : (if ro then stats_add (Some p) STAT_RX_REORDERED (N.of_nat (length f)) s2 else Ok s2) = Ok s3).
  { unfold s3. destruct ro; [apply stats_add_ok; assumption | reflexivity]. }
  rewrite E3. cbn [bind].
  assert (E4 : iface_write E p i f ro s3 = (tick s3, [Write p i f ro (e_write E (n_tick s3))])) by (unfold iface_write; destruct f; [contradiction | reflexivity]).
  rewrite E4. cbn [fst snd].
  assert (A3 : forall r, acct (fun x => x = p) s [Write p i f ro r] (tick s3)).
  { intros r. change [Write p i f ro r] with ([] ++ [Write p i f ro r]). apply (acct_trans _ _ _ s1); [exact A1|]. rewrite <- (app_nil_r [Write p i f ro r]).
    assert (W3 : wf s3) by (unfold s3; destruct ro; [apply wf_counted, W2 | exact W2]).
    apply (acct_trans _ _ _ s3); [|apply acct_tick, W3]. constructor.
    - exact W3.
    - unfold s3. destruct ro; unfold s2; rewrite ?counted_ids; reflexivity.
    - unfold s3. destruct ro; reflexivity.
    - intros L HL. cbn [fold_left book]. cbv zeta. pose proof (good_counted STAT_RX p f s1 L (a_wf _ _ _ _ A1) Hp1 HL) as K. unfold s3. destruct ro; [|exact K]. apply good_counted; assumption.
    - intros field Hfield G0 HG. cbn [past fold_right].
      pose proof (sums_counted STAT_RX p (N.of_nat (length f)) s1 [] (a_wf _ _ _ _ A1) Hp1 (fun _ _ => eq_refl) field Hfield G0 HG) as K.
      unfold s3. destruct ro; [|exact K]. pose proof (sums_counted STAT_RX_REORDERED p (N.of_nat (length f)) s2 [] W2 Hp2 (fun _ _ => eq_refl) field Hfield _ K) as K2.
      intros st. specialize (K2 st). cbv beta in K2. cbn [past fold_right] in K2. rewrite N.add_0_r in K2. exact K2.
    - intros x Hx Hn. unfold s3, s2. destruct ro; repeat (apply counted_others; [|exact Hn]); exact Hx. }
  assert (W4 : wf (tick s3)) by exact (a_wf _ _ _ _ (A3 None)).
  destruct (c_tap C && c_forward C)%bool eqn:Fw.
  - apply andb_prop in Fw. destruct Fw as [Tap Fwd]. rewrite Tap in Tr. cbn [andb] in Tr. unfold send_data. rewrite Tap. cbn [negb]. change ETH_HEADER with 14. rewrite Tr. cbn [bind].
    destruct (tap_ok (Some p) f s0 (tick s3) W4) as (s' & evs & A & B & D & F).
    + apply (like_trans _ s0 s); [exact Hl|]. exact (like_other p s (tick s3) _ W (A3 None)).
    + assert (X : n_eth (tick s3) = n_eth s1) by (unfold s3, s2; destruct ro; reflexivity). rewrite X. unfold s1. rewrite Tap, unicast_is. cbn [andb]. unfold owner. cbv zeta. change (firstn 6 (skipn 6 f)) with (source_address f).
      destruct (unicast (source_address f)); cbn [andb]; [rewrite learned_assoc, He; reflexivity | rewrite He; reflexivity].
    + exact Tap.
    + exact Tr.
    + rewrite A. cbn [bind fst snd]. exists s', [Write p i f ro (e_write E (n_tick s3))], evs. split; [reflexivity|]. split; [|split; [eexists; reflexivity | split; [exact F | exact D]]].
      apply (acct_trans _ _ _ (tick s3)); [|exact B]. apply (acct_weaken (fun x => x = p)); [auto | apply A3].
  - exists (tick s3), [Write p i f ro (e_write E (n_tick s3))], []. rewrite app_nil_r. split; [reflexivity|]. split; [apply (acct_weaken (fun x => x = p)); [auto | apply A3]|]. split; [eexists; reflexivity|]. split; [constructor | reflexivity].
Qed.

Lemma session_send_empty : forall p x s s' evs, session_send E p x [] s = Ok (s', evs) -> n_peers s' = n_peers s /\ n_eth s' = n_eth s.
Proof.
  intros p x s s' evs H. unfold session_send in H. destruct (get p s) as [q| | |] eqn:G; cbn [bind] in H; try discriminate H. cbv zeta in H. destruct (e_encrypt E (n_tick s) x []) as [w|].
  - unfold fastd_send in H. cbn [length N.of_nat] in H.
    assert (X : forall r s1, match r with
           | Some EAGAIN => stats_add (Some p) STAT_TX_DROPPED 0 s1
           | Some ENETDOWN | Some ENETUNREACH | Some EHOSTUNREACH => stats_add (Some p) STAT_TX_ERROR 0 s1
           | Some _ => stats_add (Some p) STAT_TX_ERROR 0 s1
           | None => stats_add (Some p) STAT_TX 0 s1
           end = Ok s1) by (intros [[]|] s1; reflexivity).
    destruct (p_local q && retry (e_send E (n_tick (tick s))))%bool; rewrite X in H; cbn [bind] in H; injection H as <- _; split; reflexivity.
  - injection H as <- _. split; reflexivity.
Qed.

Lemma handle_recv_ok : forall p w s q, wf s -> get p s = Ok q -> In q (n_peers s) -> p_id q = p ->
  exists s' evs, handle_recv E C p w s = Ok (s', evs) /\ acct (fun _ => True) s evs s' /\ received E C s p q w evs.
Proof.
  intros p w s q W G Hq Hid. assert (Hp : In p (ids s)) by (rewrite <- Hid; apply in_map, Hq).
  unfold handle_recv, received. rewrite G. cbn [bind]. destruct (p_proto q) eqn:Pr; cbn [negb]; [|exists s, []; split; [reflexivity|]; split; [apply acct_refl, W | left; auto]].
  destruct (check_session_ok E p s q W G Hq Hid) as [(x & Hx & Hv & Ck)|(s' & evs & Ck & A & V & Ev)]; rewrite Ck; cbn [bind negb].
  2:{ exists s', (Expired p :: evs). split; [reflexivity|]. split; [apply (acct_weaken (fun x => x = p)); [auto | exact A]|]. right. left. split.
      - intros x Hx. unfold is_valid in V. rewrite Hx in V. exists (n_tick s). exact V.
      - subst evs. destruct (p_state q); auto. }
  assert (G' : get p (tick s) = Ok q) by exact G. rewrite G'. cbn [bind].
  assert (Es : est q = true) by (apply (wf_sess s W q Hq); rewrite Hx; discriminate).
  set (s3 := tick (tick (tick s))).
  assert (W3 : wf s3) by (repeat apply wf_tick; exact W).
  assert (A3 : forall P, acct P s [] s3) by (intros P; exact (acct_trans _ _ _ _ _ _ (acct_tick P _ W) (acct_trans _ _ _ _ _ _ (acct_tick P _ (wf_tick _ W)) (acct_tick P _ (wf_tick _ (wf_tick _ W)))))).
  set (ro := match p_old q with Some x0 => if is_valid E (p_old q) (tick s) then e_decrypt E (n_tick (tick (tick s))) x0 w else None | None => None end).
  cbv zeta.
  assert (Ro : forall f o, ro = Some (f, o) -> reading E q w (Some (f, match o with Some b => b | None => false end))).
  { intros f o H. unfold ro in H. destruct (p_old q) as [y|] eqn:Old; [|discriminate H]. destruct (is_valid E (Some y) (tick s)) eqn:Vy; [|discriminate H]. exact (Reading_old E q w y _ _ f o Old Vy H). }
  change (match p_old q with Some x0 => if is_valid E (p_old q) (tick s) then e_decrypt E (n_tick (tick (tick s))) x0 w else None | None => None end) with ro.
  destruct ro as [[f o]|] eqn:Rq.
  - specialize (Ro f o eq_refl). destruct f as [|b f].
    + exists s3, []. split; [reflexivity|]. split; [apply A3|]. right. right. split; [exists x, (n_tick s); auto|]. exists (Some ([], match o with Some b => b | None => false end)), [], [], []. split; [exact Ro|]. split; [reflexivity|]. split; [constructor|].
      destruct (p_iface q); split; reflexivity.
    + destruct (handle_receive_ok p (b :: f) (assigned o false) s s3 q W3) as (s' & given & fwd & A & B & D); try assumption; try reflexivity; try discriminate.
      { exact (like_other p s s3 [] W (A3 _)). }
      change (tick (tick (tick s))) with s3. rewrite A. cbn [bind fst snd app]. exists s', (given ++ fwd). split; [reflexivity|]. split.
      * change (given ++ fwd) with ([] ++ (given ++ fwd)). exact (acct_trans _ _ _ _ _ _ (A3 _) B).
      * right. right. split; [exists x, (n_tick s); auto|]. exists (Some (b :: f, match o with Some b => b | None => false end)), [], given, fwd. split; [exact Ro|]. split; [reflexivity|]. split; [constructor|]. exact D.
  - rewrite Hx. change (tick (tick (tick s))) with s3. destruct (e_decrypt E (n_tick s3) x w) as [[f o]|] eqn:De.
    + assert (Rn : reading E q w (Some (f, match o with Some b => b | None => false end))) by exact (Reading_new E q w x _ f o Hx De).
      set (x' := mk_session (s_no x) (s_initiator x) true). set (s4 := tick s3). set (s5 := change p (set_sessions (Some x') None) s4).
      assert (W4 : wf s4) by (apply wf_tick, W3).
      assert (A5 : acct (fun y => y = p) s [] s5).
      { apply (acct_trans _ s [] s4 [] s5); [exact (acct_trans _ _ _ _ _ _ (A3 _) (acct_tick _ _ W3))|]. apply acct_change; [exact W4 | reflexivity | reflexivity|]. intros y Hy Hyp.
        assert (y = q) by (apply (get_unique s p q y W G Hy Hyp)). subst y. assert (Eq : est (set_sessions (Some x') None q) = est q) by reflexivity. rewrite Eq, Es. split; [|auto]. intros _. split; [exact Pr | discriminate]. }
      set (r1 := if (negb (s_cleaned x) && s_initiator x)%bool then session_send E p x' [] s5 else Ok (s5, [])).
      assert (R1 : exists s6 e6, r1 = Ok (s6, e6) /\ acct (fun y => y = p) s5 e6 s6 /\ Forall (empty_to p) e6 /\ n_peers s6 = n_peers s5 /\ n_eth s6 = n_eth s5).
      { unfold r1. destruct (negb (s_cleaned x) && s_initiator x)%bool; [|exists s5, []; split; [reflexivity|]; split; [apply acct_refl, A5|]; auto].
        destruct (session_send_ok E p x' [] s5 (a_wf _ _ _ _ A5)) as (s6 & e6 & A & B & _ & D); [rewrite (a_ids _ _ _ _ A5); exact Hp|]. exists s6, e6. split; [exact A|]. split; [exact B|].
        split; [|exact (session_send_empty p x' s5 s6 e6 A)]. destruct D as [(_ & ->)|(w0 & _ & D)]; [constructor; [reflexivity | constructor]|].
        apply (Forall_impl _ (P := fits p [] w0)); [|exact D]. intros e (pk & r & ->). reflexivity. }
      destruct R1 as (s6 & e6 & E6 & A6 & F6 & P6 & T6). rewrite E6. cbn [bind fst snd app].
      assert (A06 : acct (fun y => y = p) s e6 s6) by (change e6 with ([] ++ e6); exact (acct_trans _ _ _ _ _ _ A5 A6)).
      destruct f as [|b f].
      * exists s6, e6. split; [reflexivity|]. split; [apply (acct_weaken (fun y => y = p)); [auto | exact A06]|]. right. right. split; [exists x, (n_tick s); auto|].
        exists (Some ([], match o with Some b => b | None => false end)), e6, [], []. split; [exact Rn|]. split; [rewrite app_nil_r; reflexivity|]. split; [exact F6|]. destruct (p_iface q); split; reflexivity.
      * set (q6 := set_sessions (Some x') None q).
        assert (Hq6 : In q6 (n_peers s6)). { rewrite P6. pose proof (change_in p (set_sessions (Some x') None) s4 q Hq) as K. rewrite Hid, N.eqb_refl in K. exact K. }
        assert (G6 : get p s6 = Ok q6). { destruct (get_ok s6 p) as (q7 & G7 & Hq7 & Hid7); [rewrite (a_ids _ _ _ _ A06); exact Hp|]. rewrite G7. f_equal. symmetry. apply (get_unique s6 p q7 q6 (a_wf _ _ _ _ A06) G7 Hq6). exact Hid. }
        destruct (handle_receive_ok p (b :: f) (assigned o false) s s6 q6 (a_wf _ _ _ _ A06)) as (s' & given & fwd & A & B & D); try assumption; try discriminate.
        { exact (like_other p s s6 _ W A06). }
        all: try exact Hid; try exact Es; try exact T6.
        rewrite A. cbn [bind fst snd]. exists s', (e6 ++ given ++ fwd). split; [reflexivity|]. split.
        -- apply (acct_trans _ _ _ s6); [|exact B]. apply (acct_weaken (fun y => y = p)); [auto | exact A06].
        -- right. right. split; [exists x, (n_tick s); auto|]. exists (Some (b :: f, match o with Some b => b | None => false end)), e6, given, fwd. split; [exact Rn|]. split; [reflexivity|]. split; [exact F6|]. exact D.
    + exists (tick s3), []. split; [reflexivity|]. split; [exact (acct_trans _ _ _ _ _ _ (A3 _) (acct_tick _ _ W3))|]. right. right. split; [exists x, (n_tick s); auto|].
      exists None, [], [], []. split; [exact (Reading_none E q w x _ Hx De)|]. split; [reflexivity|]. split; [constructor | auto].
Qed.
End Env.
