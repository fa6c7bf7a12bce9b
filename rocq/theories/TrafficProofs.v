(** Proofs for C73: the invariant and the accounting *)
From Verif Require Import Base BufferModel TrafficModel TrafficSpec.

Definition ids (s : node) : list N := map p_id (n_peers s).
Definition est (q : peer) : bool := match p_state q with Established => true | _ => false end.

Record wf (s : node) : Prop := mk_wf {
  wf_nodup : NoDup (ids s);
  wf_next : forall p, In p (ids s) -> (p < n_next s)%N;
  wf_est : forall q, In q (n_peers s) -> est q = true -> p_proto q = true /\ p_sess q <> None;
  wf_sess : forall q, In q (n_peers s) -> p_sess q <> None -> est q = true;
  wf_eth : forall a p, In (a, Some p) (n_eth s) -> exists q, In q (n_peers s) /\ p_id q = p /\ est q = true }.

(** The accounts: what the counters are after some events *)
Record ledger := mk_ledger { lg : stats; lp : N -> stats }.
Definition enter (st : stat) (p : N) (f : bytes) (L : ledger) : ledger :=
  let n := N.of_nat (length f) in
  mk_ledger (count1 st n (lg L)) (fun x => if N.eqb x p then count1 st n (lp L x) else lp L x).
Definition book (L : ledger) (e : event) : ledger :=
  match e with
  | Send (Some p) (Some f) _ pk r =>
      if (nonempty f && negb (repeated pk r))%bool then
        enter (match r with None => STAT_TX | Some EAGAIN => STAT_TX_DROPPED | Some _ => STAT_TX_ERROR end) p f L
      else L
  | Write p _ f ro _ => let L := enter STAT_RX p f L in if ro then enter STAT_RX_REORDERED p f L else L
  | Reset p _ => mk_ledger (lg L) (fun x => if N.eqb x p then no_stats else lp L x)
  | _ => L
  end.
Definition good (s : node) (L : ledger) : Prop :=
  n_stats s = lg L /\ (forall q, In q (n_peers s) -> p_stats q = lp L (p_id q)) /\ (forall p, (n_next s <= p)%N -> lp L p = no_stats).

Definition total_ok (field : stats -> stat -> N) (s : node) (G : stat -> N) : Prop :=
  forall st, ((field (n_stats s) st) mod U64 = (present field st (n_peers s) + G st) mod U64)%N.
Definition sums (s : node) (evs : list event) (s' : node) : Prop :=
  forall field, field = packets \/ field = octets -> forall G, total_ok field s G -> total_ok field s' (fun st => (G st + past field st evs)%N).
Definition books (s : node) (evs : list event) (s' : node) : Prop := forall L, good s L -> good s' (fold_left book evs L).

(** A change of the state in accordance with the events, of peer [p] only *)
Record acct (only : N -> Prop) (s : node) (evs : list event) (s' : node) : Prop := mk_acct {
  a_wf : wf s'; a_ids : ids s' = ids s; a_next : n_next s' = n_next s;
  a_books : books s evs s'; a_sums : sums s evs s';
  a_others : forall q, In q (n_peers s) -> ~ only (p_id q) -> In q (n_peers s') }.

Lemma past_app : forall field st a b, past field st (a ++ b) = (past field st a + past field st b)%N.
Proof. intros field st a b. induction a as [|e a IH]; cbn [app past fold_right]; [reflexivity|]. unfold past in *. destruct e; cbn [fold_right]; rewrite ?IH; lia. Qed.
Lemma acct_trans : forall P s e1 s1 e2 s2, acct P s e1 s1 -> acct P s1 e2 s2 -> acct P s (e1 ++ e2) s2.
Proof.
  intros P s e1 s1 e2 s2 A B. constructor.
  - exact (a_wf _ _ _ _ B).
  - rewrite (a_ids _ _ _ _ B). exact (a_ids _ _ _ _ A).
  - rewrite (a_next _ _ _ _ B). exact (a_next _ _ _ _ A).
  - intros L H. rewrite fold_left_app. exact (a_books _ _ _ _ B _ (a_books _ _ _ _ A _ H)).
  - intros field Hf G H st. pose proof (a_sums _ _ _ _ B field Hf _ (a_sums _ _ _ _ A field Hf G H) st) as X. rewrite past_app. cbv beta in X. rewrite <- (N.add_assoc (G st)) in X. exact X.
  - intros q Hq Hn. apply (a_others _ _ _ _ B); [apply (a_others _ _ _ _ A); assumption | exact Hn].
Qed.
Lemma acct_weaken : forall (P Q : N -> Prop) s e s', (forall p, P p -> Q p) -> acct P s e s' -> acct Q s e s'.
Proof. intros P Q s e s' H A. destruct A as [a b c d e0 f]. constructor; try assumption. intros q Hq Hn. apply f; [exact Hq|]. intros X. apply Hn, H, X. Qed.
Lemma acct_refl : forall P s, wf s -> acct P s [] s.
Proof.
  intros P s W. constructor; auto; [intros L H; exact H |]. intros field Hf G H st. cbn [past fold_right]. rewrite N.add_0_r. apply H.
Qed.
Lemma wf_tick : forall s, wf s -> wf (tick s).
Proof. intros s [a b c d e]. constructor; assumption. Qed.
Lemma acct_tick : forall P s, wf s -> acct P s [] (tick s).
Proof.
  intros P s W. constructor; auto; [exact (wf_tick s W) | intros L H; exact H |]. intros field Hf G H st. cbn [past fold_right]. rewrite N.add_0_r. apply H.
Qed.

Lemma ids_find : forall l p, In p (map p_id l) -> exists q, List.find (fun q => N.eqb (p_id q) p) l = Some q /\ In q l /\ p_id q = p.
Proof.
  intros l p H. destruct (List.find (fun q => N.eqb (p_id q) p) l) as [q|] eqn:F.
  - exists q. apply List.find_some in F. destruct F as [F1 F2]. apply N.eqb_eq in F2. auto.
  - exfalso. apply in_map_iff in H. destruct H as (q & H1 & H2). pose proof (List.find_none _ _ F q H2) as X. cbv beta in X. rewrite H1, N.eqb_refl in X. discriminate X.
Qed.
Lemma get_ok : forall s p, In p (ids s) -> exists q, get p s = Ok q /\ In q (n_peers s) /\ p_id q = p.
Proof. intros s p H. destruct (ids_find _ _ H) as (q & F & A & B). exists q. unfold get, find. rewrite F. auto. Qed.
Lemma nodup_id : forall l (q q' : peer), NoDup (map p_id l) -> In q l -> In q' l -> p_id q = p_id q' -> q = q'.
Proof.
  induction l as [|x l IH]; intros q q' N1 H H' E; [destruct H|]. cbn [map] in N1. inversion N1 as [|? ? Hn N2]; subst.
  destruct H as [<-|H], H' as [<-|H']; auto.
  - exfalso. apply Hn. rewrite E. apply in_map. exact H'.
  - exfalso. apply Hn. rewrite <- E. apply in_map. exact H.
Qed.
Lemma get_unique : forall s p q q', wf s -> get p s = Ok q -> In q' (n_peers s) -> p_id q' = p -> q' = q.
Proof.
  intros s p q q' W G H E. unfold get, find in G. destruct (List.find _ _) as [x|] eqn:F; [|discriminate G]. injection G as ->. apply List.find_some in F. destruct F as [F1 F2]. apply N.eqb_eq in F2.
  apply (nodup_id (n_peers s)); [apply W | exact H | exact F1 | congruence].
Qed.

(** ** Changing a peer *)
Lemma in_change : forall p f s q', In q' (n_peers (change p f s)) -> exists q, In q (n_peers s) /\ q' = if N.eqb (p_id q) p then f q else q.
Proof. intros p f s q' H. unfold change in H. cbn [n_peers] in H. apply in_map_iff in H. destruct H as (q & A & B). exists q. auto. Qed.
Lemma change_ids : forall p f s, (forall q, p_id (f q) = p_id q) -> ids (change p f s) = ids s.
Proof.
  intros p f s H. unfold ids, change. cbn [n_peers]. rewrite map_map. apply map_ext. intros q. destruct (N.eqb (p_id q) p); [apply H | reflexivity].
Qed.
Lemma change_in : forall p f s q, In q (n_peers s) -> In (if N.eqb (p_id q) p then f q else q) (n_peers (change p f s)).
Proof. intros p f s q H. unfold change. cbn [n_peers]. apply in_map_iff. exists q. auto. Qed.

Lemma wf_change : forall p f s, wf s -> (forall q, p_id (f q) = p_id q) ->
  (forall q, In q (n_peers s) -> p_id q = p -> (est (f q) = true -> p_proto (f q) = true /\ p_sess (f q) <> None) /\ (p_sess (f q) <> None -> est (f q) = true) /\
     (est q = true -> est (f q) = true)) -> wf (change p f s).
Proof.
  intros p f s W Hid Hf. pose proof W as [a b c d e]. constructor.
  - rewrite change_ids; assumption.
  - rewrite change_ids; assumption.
  - intros q' H X. destruct (in_change _ _ _ _ H) as (q & A & ->). destruct (N.eqb_spec (p_id q) p) as [Hp|Hp]; [exact (proj1 (Hf q A Hp) X) | exact (c q A X)].
  - intros q' H X. destruct (in_change _ _ _ _ H) as (q & A & ->). destruct (N.eqb_spec (p_id q) p) as [Hp|Hp]; [exact (proj1 (proj2 (Hf q A Hp)) X) | exact (d q A X)].
  - intros a0 p0 H. destruct (e a0 p0 H) as (q & A & B & D). exists (if N.eqb (p_id q) p then f q else q). split; [apply change_in, A|].
    destruct (N.eqb_spec (p_id q) p) as [Hp|Hp]; [|auto]. rewrite Hid. split; [exact B|]. exact (proj2 (proj2 (Hf q A Hp)) D).
Qed.

(** A change that leaves the statistics alone *)
Lemma present_change : forall field st p f s, (forall q, p_stats (f q) = p_stats q) -> present field st (n_peers (change p f s)) = present field st (n_peers s).
Proof.
  intros field st p f s H. unfold change. cbn [n_peers]. induction (n_peers s) as [|q l IH]; cbn [map present fold_right]; [reflexivity|]. unfold present in IH. rewrite IH.
  destruct (N.eqb (p_id q) p); [rewrite H|]; reflexivity.
Qed.
Lemma acct_change : forall p f s, wf s -> (forall q, p_id (f q) = p_id q) -> (forall q, p_stats (f q) = p_stats q) ->
  (forall q, In q (n_peers s) -> p_id q = p -> (est (f q) = true -> p_proto (f q) = true /\ p_sess (f q) <> None) /\ (p_sess (f q) <> None -> est (f q) = true) /\
     (est q = true -> est (f q) = true)) -> acct (fun x => x = p) s [] (change p f s).
Proof.
  intros p f s W Hid Hst Hf. constructor.
  - apply wf_change; assumption.
  - apply change_ids; assumption.
  - reflexivity.
  - intros L (A & B & D). cbn [fold_left]. split; [exact A|]. split; [|exact D]. intros q' H. destruct (in_change _ _ _ _ H) as (q & H1 & ->).
    destruct (N.eqb (p_id q) p); [rewrite Hst, Hid|]; apply B, H1.
  - intros field Hfield G H st. cbn [past fold_right]. rewrite N.add_0_r, present_change by exact Hst. apply H.
  - intros q Hq Hn. pose proof (change_in p f s q Hq) as X. destruct (N.eqb_spec (p_id q) p) as [Hp|Hp]; [contradiction | exact X].
Qed.

(** ** Statistics *)
Definition counted (st : stat) (p : N) (n : N) (s : node) : node :=
  change p (fun q => set_stats (count1 st n (p_stats q)) q) (mk_node (n_peers s) (n_eth s) (count1 st n (n_stats s)) (n_next s) (n_tick s)).
Lemma stats_add_ok : forall st p n s, wf s -> In p (ids s) -> n <> 0%N -> stats_add (Some p) st n s = Ok (counted st p n s).
Proof.
  intros st p n s W H Hn. unfold stats_add. destruct (N.eqb_spec n 0) as [X|_]; [contradiction|]. destruct (get_ok s p H) as (q & G & A & B).
  assert (G' : get p (mk_node (n_peers s) (n_eth s) (count1 st n (n_stats s)) (n_next s) (n_tick s)) = Ok q) by exact G. rewrite G'. cbn [bind]. f_equal. unfold counted, change. cbn [n_peers n_eth n_stats n_next n_tick]. f_equal.
  apply map_ext_in. intros q' H'. destruct (N.eqb_spec (p_id q') p) as [E|E]; [|reflexivity]. rewrite (get_unique s p q q' W G H' E). reflexivity.
Qed.
Lemma wf_counted : forall st p n s, wf s -> wf (counted st p n s).
Proof.
  intros st p n s W. unfold counted. apply wf_change.
  - destruct W as [a b c d e]. constructor; assumption.
  - reflexivity.
  - intros q H E. cbn [n_peers] in H. destruct W as [a b c d e]. split; [exact (c q H) | split; [exact (d q H) | exact (fun X => X)]].
Qed.
Lemma counted_others : forall st p n s q, In q (n_peers s) -> p_id q <> p -> In q (n_peers (counted st p n s)).
Proof.
  intros st p n s q H E. unfold counted, change. cbn [n_peers]. apply in_map_iff. exists q. split; [|exact H]. destruct (N.eqb_spec (p_id q) p); [contradiction | reflexivity].
Qed.
Lemma counted_ids : forall st p n s, ids (counted st p n s) = ids s.
Proof. intros st p n s. unfold counted. rewrite change_ids by reflexivity. reflexivity. Qed.
Lemma good_counted : forall st p f s L, wf s -> In p (ids s) -> good s L -> good (counted st p (N.of_nat (length f)) s) (enter st p f L).
Proof.
  intros st p f s L W Hp (A & B & D). split; [|split].
  - unfold counted, change, enter. cbn [n_stats lg]. rewrite A. reflexivity.
  - intros q' H. destruct (in_change _ _ _ _ H) as (q & H1 & ->). cbn [n_peers] in H1. unfold enter. cbn [lp]. destruct (N.eqb_spec (p_id q) p) as [E|E].
    + cbn [set_stats p_stats p_id]. destruct (N.eqb_spec (p_id q) p) as [_|X]; [|contradiction]. rewrite (B q H1). reflexivity.
    + destruct (N.eqb_spec (p_id q) p) as [X|_]; [contradiction|]. apply B, H1.
  - intros x Hx. unfold enter. cbn [lp]. destruct (N.eqb_spec x p) as [->|E]; [|apply D, Hx]. exfalso. apply (wf_next s W) in Hp. unfold counted, change in Hx. cbn [n_next] in Hx. lia.
Qed.

Lemma mod_add_both : forall a b x m, (m <> 0 -> a mod m = b mod m -> (a + x) mod m mod m = (b + x) mod m)%N.
Proof. intros a b x m Hm H. rewrite N.mod_mod by exact Hm. rewrite (N.add_mod a), (N.add_mod b) by exact Hm. rewrite H. reflexivity. Qed.
Definition amount (field : stats -> stat -> N) (n d : N) : Prop := (field = packets /\ d = 1%N) \/ (field = octets /\ d = n).
Lemma amount_ex : forall field n, field = packets \/ field = octets -> exists d, amount field n d.
Proof. intros field n [->| ->]; [exists 1%N; left | exists n; right]; auto. Qed.
Lemma field_count1 : forall field n d st c st0, amount field n d ->
  field (count1 st n c) st0 = if stat_eqb st0 st then ((field c st0 + d) mod U64)%N else field c st0.
Proof. intros field n d st c st0 [[-> ->]|[-> ->]]; reflexivity. Qed.
Lemma U64_nz : U64 <> 0%N.
Proof. discriminate. Qed.
Lemma mod_add_r : forall a b b', (b mod U64 = b' mod U64 -> (a + b) mod U64 = (a + b') mod U64)%N.
Proof. intros a b b' H. rewrite (N.add_mod a b), (N.add_mod a b') by exact U64_nz. rewrite H. reflexivity. Qed.
Lemma mod_add_l : forall a a' b, (a mod U64 = a' mod U64 -> (a + b) mod U64 = (a' + b) mod U64)%N.
Proof. intros a a' b H. rewrite (N.add_mod a b), (N.add_mod a' b) by exact U64_nz. rewrite H. reflexivity. Qed.
(** The sum of the peers' counters changes as the global one *)
Lemma present_same : forall field st0 g l p, ~ In p (map p_id l) ->
  present field st0 (map (fun q => if N.eqb (p_id q) p then g q else q) l) = present field st0 l.
Proof.
  intros field st0 g l p. induction l as [|q l IH]; intros H; cbn [map present fold_right]; [reflexivity|]. unfold present in IH. cbn [map In] in H. rewrite IH by tauto.
  destruct (N.eqb_spec (p_id q) p) as [E|E]; [exfalso; apply H; left; exact E | reflexivity].
Qed.
Lemma present_bump : forall field n d st0 st l p, amount field n d -> NoDup (map p_id l) -> In p (map p_id l) ->
  (present field st0 (map (fun q => if N.eqb (p_id q) p then set_stats (count1 st n (p_stats q)) q else q) l) mod U64 =
   (present field st0 l + (if stat_eqb st0 st then d else 0)) mod U64)%N.
Proof.
  intros field n d st0 st l p Ha. induction l as [|q l IH]; intros Nd H; [destruct H|]. cbn [map] in Nd, H. inversion Nd as [|? ? Hn Nd']; subst.
  cbn [map]. change (present field st0 ((if N.eqb (p_id q) p then set_stats (count1 st n (p_stats q)) q else q) :: map (fun q => if N.eqb (p_id q) p then set_stats (count1 st n (p_stats q)) q else q) l))
    with (field (p_stats (if N.eqb (p_id q) p then set_stats (count1 st n (p_stats q)) q else q)) st0 + present field st0 (map (fun q => if N.eqb (p_id q) p then set_stats (count1 st n (p_stats q)) q else q) l))%N.
  change (present field st0 (q :: l)) with (field (p_stats q) st0 + present field st0 l)%N.
  destruct (N.eqb_spec (p_id q) p) as [E|E].
  - rewrite present_same by (rewrite <- E; exact Hn). cbn [set_stats p_stats]. rewrite (field_count1 field n d st (p_stats q) st0 Ha). destruct (stat_eqb st0 st).
    + replace (field (p_stats q) st0 + present field st0 l + d)%N with (field (p_stats q) st0 + d + present field st0 l)%N by lia. apply mod_add_l. apply N.mod_mod, U64_nz.
    + f_equal. lia.
  - destruct H as [H|H]; [contradiction|]. rewrite <- N.add_assoc. apply mod_add_r. apply IH; assumption.
Qed.
Lemma sums_counted : forall st p n s evs, wf s -> In p (ids s) -> (forall field st, past field st evs = 0%N) -> sums s evs (counted st p n s).
Proof.
  intros st p n s evs W Hp Hz field Hf G H st0. rewrite Hz, N.add_0_r. destruct (amount_ex field n Hf) as (d & Ha). specialize (H st0). unfold counted, change. cbn [n_stats n_peers].
  rewrite (field_count1 field n d st _ st0 Ha).
  rewrite (mod_add_l _ _ (G st0) (present_bump field n d st0 st (n_peers s) p Ha (wf_nodup s W) Hp)). destruct (stat_eqb st0 st).
  - replace (present field st0 (n_peers s) + d + G st0)%N with (present field st0 (n_peers s) + G st0 + d)%N by lia. apply mod_add_both; [exact U64_nz | exact H].
  - rewrite N.add_0_r. exact H.
Qed.
(** Counting one packet, and the event it is counted for *)
Lemma acct_counted : forall st p f s evs, wf s -> In p (ids s) -> (forall L, fold_left book evs L = enter st p f L) ->
  (forall field st, past field st evs = 0%N) -> acct (fun x => x = p) s evs (counted st p (N.of_nat (length f)) s).
Proof.
  intros st p f s evs W Hp Hb Hz. constructor.
  - apply wf_counted, W.
  - apply counted_ids.
  - reflexivity.
  - intros L H. rewrite Hb. apply good_counted; assumption.
  - apply sums_counted; assumption.
  - intros q Hq Hn. apply counted_others; [exact Hq | exact Hn].
Qed.
Lemma acct_quiet : forall P s evs s', acct P s [] s' -> (forall L, fold_left book evs L = L) -> (forall field st, past field st evs = 0%N) -> acct P s evs s'.
Proof.
  intros P s evs s' [a b c d e f] Hb Hz. constructor; try assumption.
  - intros L H. rewrite Hb. exact (d L H).
  - intros field Hf G H st. rewrite Hz. exact (e field Hf G H st).
Qed.
