(** Proofs for C73: sending *)
From Verif Require Import Base BufferModel TrafficModel TrafficSpec TrafficProofs.

Section Env.
Context (E : environment) (C : config).

Definition blank (q : peer) : peer := mk_peer (p_id q) Inactive (p_proto q) None None None false no_stats.
Lemma field_no : forall field st, field = packets \/ field = octets -> field no_stats st = 0%N.
Proof. intros field st [->| ->]; reflexivity. Qed.
Lemma present_blank : forall field st l q, field = packets \/ field = octets -> NoDup (map p_id l) -> In q l ->
  (present field st (map (fun x => if N.eqb (p_id x) (p_id q) then blank x else x) l) + field (p_stats q) st = present field st l)%N.
Proof.
  intros field st l q Hf. induction l as [|x l IH]; intros Nd H; [destruct H|]. cbn [map] in Nd. inversion Nd as [|? ? Hn Nd']; subst. cbn [map].
  change (present field st ((if N.eqb (p_id x) (p_id q) then blank x else x) :: map (fun x => if N.eqb (p_id x) (p_id q) then blank x else x) l))
    with (field (p_stats (if N.eqb (p_id x) (p_id q) then blank x else x)) st + present field st (map (fun x => if N.eqb (p_id x) (p_id q) then blank x else x) l))%N.
  change (present field st (x :: l)) with (field (p_stats x) st + present field st l)%N. destruct (N.eqb_spec (p_id x) (p_id q)) as [Eq|Eq].
  - rewrite present_same by (rewrite <- Eq; exact Hn). cbn [blank p_stats]. rewrite (field_no field st Hf). destruct H as [->|H]; [lia|]. exfalso. apply Hn. rewrite Eq. apply in_map, H.
  - destruct H as [->|H]; [contradiction|]. specialize (IH Nd' H). lia.
Qed.

(** The state after [reset_peer] *)
Definition was_reset (p : N) (s : node) : node :=
  with_eth (filter (fun e => negb (opt_is (snd e) p)) (n_eth s)) (change p blank s).
Lemma was_reset_wf : forall p s, wf s -> wf (was_reset p s).
Proof.
  intros p s [a b c d e]. constructor.
  - change (ids (was_reset p s)) with (ids (change p blank s)). rewrite change_ids by reflexivity. exact a.
  - change (ids (was_reset p s)) with (ids (change p blank s)). rewrite change_ids by reflexivity. exact b.
  - intros q' H X. destruct (in_change _ _ _ _ H) as (q & A & ->). destruct (N.eqb (p_id q) p); [discriminate X | exact (c q A X)].
  - intros q' H X. destruct (in_change _ _ _ _ H) as (q & A & ->). destruct (N.eqb (p_id q) p); [exfalso; apply X; reflexivity | exact (d q A X)].
  - intros a0 p0 H. unfold was_reset, with_eth in H. cbn [n_eth change] in H. apply filter_In in H. destruct H as [H1 H2]. destruct (e a0 p0 H1) as (q & A & B & D).
    cbn [snd opt_is] in H2. destruct (N.eqb_spec p0 p) as [X|X]; [discriminate H2|]. exists q. split; [|auto].
    pose proof (change_in p blank s q A) as Y. destruct (N.eqb_spec (p_id q) p) as [Z|Z]; [congruence | exact Y].
Qed.
Lemma reset_ok : forall p s q, wf s -> get p s = Ok q -> In q (n_peers s) -> p_id q = p ->
  reset_peer p s = Ok (was_reset p s, [Reset p (p_stats q)]) /\ acct (fun x => x = p) s [Reset p (p_stats q)] (was_reset p s) /\
  (forall q', In q' (n_peers (was_reset p s)) -> p_id q' = p -> q' = blank q).
Proof.
  intros p s q W G Hq Hid. split; [unfold reset_peer; rewrite G; reflexivity|]. split.
  - constructor.
    + apply was_reset_wf, W.
    + change (ids (was_reset p s)) with (ids (change p blank s)). apply change_ids. reflexivity.
    + reflexivity.
    + intros L (A & B & D). cbn [fold_left book]. split; [exact A|]. split.
      * intros q' H. destruct (in_change _ _ _ _ H) as (q0 & A0 & ->). cbn [lp]. destruct (N.eqb_spec (p_id q0) p) as [X|X].
        -- cbn [blank p_stats p_id]. rewrite X, N.eqb_refl. reflexivity.
        -- destruct (N.eqb_spec (p_id q0) p) as [Y|_]; [contradiction | apply B, A0].
      * intros x Hx. cbn [lp]. destruct (N.eqb x p); [reflexivity | apply D, Hx].
    + intros field Hf G0 H st. specialize (H st). unfold was_reset, with_eth, change. cbn [n_stats n_peers past fold_right].
      pose proof (present_blank field st (n_peers s) q Hf (wf_nodup s W) Hq) as P. rewrite Hid in P. rewrite H, <- P. f_equal. lia.
    + intros q0 Hq0 Hn. pose proof (change_in p blank s q0 Hq0) as Y. destruct (N.eqb_spec (p_id q0) p) as [Z|Z]; [contradiction | exact Y].
  - intros q' H Hp. destruct (in_change _ _ _ _ H) as (q0 & A0 & ->). destruct (N.eqb_spec (p_id q0) p) as [X|X].
    + rewrite (get_unique s p q q0 W G A0 X). reflexivity.
    + contradiction.
Qed.

Lemma setup_acct : forall p d s, wf s -> (forall q, In q (n_peers s) -> p_id q = p -> p_sess q = None) ->
  acct (fun x => x = p) s [] (setup_peer E p d s).
Proof.
  intros p d s W H. unfold setup_peer.
  assert (A : acct (fun x => x = p) s [] (change p (fun q => if d then q else mk_peer (p_id q) Waiting (p_proto q) (p_sess q) (p_old q) (e_iface E (n_tick s)) false (p_stats q)) s)).
  { apply acct_change; [exact W | intros q; destruct d; reflexivity | intros q; destruct d; reflexivity |]. intros q Hq Hp. pose proof (H q Hq Hp) as N0. pose proof (wf_est s W q Hq) as We.
    assert (X : est q = true -> False) by (intros X; apply (proj2 (We X)), N0).
    destruct d; [split; [exact We | split; [exact (wf_sess s W q Hq) | exact (fun x => x)]]|]. cbn [p_sess est p_state p_proto]. split; [discriminate|]. split; [intros Y; contradiction | intros Y; destruct (X Y)]. }
  exact (acct_trans _ _ _ _ _ _ A (acct_tick _ _ (a_wf _ _ _ _ A))).
Qed.

Lemma peer_reset_ok : forall p d s q, wf s -> get p s = Ok q -> In q (n_peers s) -> p_id q = p ->
  exists s' evs, peer_reset E p d s = Ok (s', evs) /\ acct (fun x => x = p) s evs s' /\
    evs = match p_state q with Inactive => [] | _ => [Reset p (p_stats q)] end.
Proof.
  intros p d s q W G Hq Hid. destruct (reset_ok p s q W G Hq Hid) as (R & A & U).
  assert (K : forall s1 evs, acct (fun x => x = p) s evs s1 -> (forall q', In q' (n_peers s1) -> p_id q' = p -> p_sess q' = None) ->
              acct (fun x => x = p) s evs (setup_peer E p d s1)).
  { intros s1 evs A1 H1. rewrite <- (app_nil_r evs). exact (acct_trans _ _ _ _ _ _ A1 (setup_acct p d s1 (a_wf _ _ _ _ A1) H1)). }
  unfold peer_reset. rewrite G. cbn [bind]. destruct (p_state q) eqn:St; rewrite ?R; cbn [bind fst snd]; eexists; eexists; (split; [reflexivity|]); (split; [|reflexivity]).
  - apply K; [apply acct_refl, W|]. intros q' H' Hp'. rewrite (get_unique s p q q' W G H' Hp'). destruct (p_sess q) eqn:Se; [|reflexivity].
    assert (X : est q = true) by (apply (wf_sess s W q Hq); rewrite Se; discriminate). unfold est in X. rewrite St in X. discriminate X.
  - apply K; [exact A|]. intros q' H' Hp'. rewrite (U q' H' Hp'). reflexivity.
  - apply K; [exact A|]. intros q' H' Hp'. rewrite (U q' H' Hp'). reflexivity.
Qed.

Lemma check_session_ok : forall p s q, wf s -> get p s = Ok q -> In q (n_peers s) -> p_id q = p -> 
  (exists x, p_sess q = Some x /\ e_valid E (n_tick s) x = true /\ check_session E p s = Ok (true, tick s, [])) \/
  (exists s' evs, check_session E p s = Ok (false, s', Expired p :: evs) /\ acct (fun x => x = p) s (Expired p :: evs) s' /\ is_valid E (p_sess q) s = false /\
    evs = match p_state q with Inactive => [] | _ => [Reset p (p_stats q)] end).
Proof.
  intros p s q W G Hq Hid. unfold check_session. rewrite G. cbn [bind]. destruct (is_valid E (p_sess q) s) eqn:V.
  - left. destruct (p_sess q) as [x|]; [|discriminate V]. exists x. auto.
  - right. destruct (peer_reset_ok p false (tick s) q (wf_tick s W) G Hq Hid) as (s' & evs & R & A & Ev). rewrite R. cbn [bind fst snd]. exists s', evs. split; [reflexivity|]. split; [|auto].
    change (Expired p :: evs) with ([Expired p] ++ evs). apply (acct_trans _ s [Expired p] (tick s) evs s'); [|exact A].
    apply acct_quiet; [apply acct_tick, W | reflexivity | reflexivity].
Qed.

(** A packet with payload *)
Definition fits (p : N) (f w : bytes) (e : event) : Prop := exists pk r, e = Send (Some p) (Some f) w pk r.
Definition class (r : option errno) : stat := match r with None => STAT_TX | Some EAGAIN => STAT_TX_DROPPED | Some _ => STAT_TX_ERROR end.
Lemma tail_acct : forall p f s0 s r evs, wf s0 -> s = tick s0 \/ s = tick (tick s0) -> In p (ids s0) ->
  (forall L, fold_left book evs L = if nonempty f then enter (class r) p f L else L) -> (forall field st, past field st evs = 0%N) ->
  exists s', (match r with
           | Some EAGAIN => stats_add (Some p) STAT_TX_DROPPED (N.of_nat (length f)) s
           | Some ENETDOWN | Some ENETUNREACH | Some EHOSTUNREACH => stats_add (Some p) STAT_TX_ERROR (N.of_nat (length f)) s
           | Some _ => stats_add (Some p) STAT_TX_ERROR (N.of_nat (length f)) s
           | None => stats_add (Some p) STAT_TX (N.of_nat (length f)) s
           end) = Ok s' /\ acct (fun x => x = p) s0 evs s'.
Proof.
  intros p f s0 s r evs W Hs Hp Hb Hz.
  assert (T : acct (fun x => x = p) s0 [] s).
  { destruct Hs as [->| ->]; [apply acct_tick, W|]. exact (acct_trans _ _ _ _ _ _ (acct_tick _ _ W) (acct_tick _ _ (wf_tick _ W))). }
  assert (Hp' : In p (ids s)) by (rewrite (a_ids _ _ _ _ T); exact Hp).
  assert (X : match r with
           | Some EAGAIN => stats_add (Some p) STAT_TX_DROPPED (N.of_nat (length f)) s
           | Some ENETDOWN | Some ENETUNREACH | Some EHOSTUNREACH => stats_add (Some p) STAT_TX_ERROR (N.of_nat (length f)) s
           | Some _ => stats_add (Some p) STAT_TX_ERROR (N.of_nat (length f)) s
           | None => stats_add (Some p) STAT_TX (N.of_nat (length f)) s
           end = stats_add (Some p) (class r) (N.of_nat (length f)) s) by (destruct r as [[]|]; reflexivity). rewrite X.
  destruct f as [|b f].
  - exists s. split; [reflexivity|]. apply acct_quiet; [exact T | exact Hb | exact Hz].
  - exists (counted (class r) p (N.of_nat (length (b :: f))) s). split; [apply stats_add_ok; [exact (a_wf _ _ _ _ T) | exact Hp' | cbn [length]; lia]|].
    change evs with ([] ++ evs). apply (acct_trans _ _ _ s); [exact T|]. apply acct_counted; [exact (a_wf _ _ _ _ T) | exact Hp' | exact Hb | exact Hz].
Qed.
Lemma fastd_send_ok : forall p pk f w s, wf s -> In p (ids s) ->
  exists s' evs, fastd_send E (Some p) pk (Some f) w (N.of_nat (length f)) s = Ok (s', evs) /\ acct (fun x => x = p) s evs s' /\
    map fst (fates evs) = [p] /\ Forall (fits p f w) evs.
Proof.
  intros p pk f w s W Hp. unfold fastd_send. destruct (pk && retry (e_send E (n_tick s)))%bool eqn:R; cbv zeta.
  - destruct (tail_acct p f s (tick (tick s)) (e_send E (n_tick (tick s)))
      [Send (Some p) (Some f) w true (e_send E (n_tick s)); Send (Some p) (Some f) w false (e_send E (n_tick (tick s)))] W (or_intror eq_refl) Hp) as (s' & A & B).
    + intros L. cbn [fold_left book]. apply andb_prop in R. destruct R as [_ R]. assert (Q : repeated true (e_send E (n_tick s)) = true) by (unfold repeated; destruct (e_send E (n_tick s)) as [[]|]; try discriminate R; reflexivity).
      rewrite Q. cbn [repeated andb negb]. rewrite andb_false_r, andb_true_r. reflexivity.
    + reflexivity.
    + rewrite A. cbn [bind]. eexists. eexists. split; [reflexivity|]. split; [exact B|]. split.
      * apply andb_prop in R. destruct R as [_ R]. unfold fates. cbn [flat_map fate_of]. assert (Q : repeated true (e_send E (n_tick s)) = true) by (unfold repeated; destruct (e_send E (n_tick s)) as [[]|]; try discriminate R; reflexivity).
        rewrite Q. reflexivity.
      * constructor; [eexists; eexists; reflexivity|]. constructor; [eexists; eexists; reflexivity | constructor].
  - assert (Q : repeated pk (e_send E (n_tick s)) = false) by exact R.
    destruct (tail_acct p f s (tick s) (e_send E (n_tick s)) [Send (Some p) (Some f) w pk (e_send E (n_tick s))] W (or_introl eq_refl) Hp) as (s' & A & B).
    + intros L. cbn [fold_left book]. rewrite Q. cbn [negb]. rewrite andb_true_r. reflexivity.
    + reflexivity.
    + rewrite A. cbn [bind]. eexists. eexists. split; [reflexivity|]. split; [exact B|]. split.
      * unfold fates. cbn [flat_map fate_of]. rewrite Q. reflexivity.
      * constructor; [eexists; eexists; reflexivity | constructor].
Qed.

(** A handshake: nothing is counted, and the peer is not accessed *)
Lemma handshake_ok : forall P who pk w s, wf s -> exists s' evs, fastd_send E who pk None w 0 s = Ok (s', evs) /\ acct P s evs s'.
Proof.
  intros P who pk w s W. unfold fastd_send.
  assert (T : acct P s [] (tick s)) by (apply acct_tick, W).
  assert (T2 : acct P s [] (tick (tick s))) by exact (acct_trans _ _ _ _ _ _ T (acct_tick _ _ (wf_tick _ W))).
  assert (X : forall r s1, match r with
           | Some EAGAIN => stats_add who STAT_TX_DROPPED 0 s1
           | Some ENETDOWN | Some ENETUNREACH | Some EHOSTUNREACH => stats_add who STAT_TX_ERROR 0 s1
           | Some _ => stats_add who STAT_TX_ERROR 0 s1
           | None => stats_add who STAT_TX 0 s1
           end = Ok s1) by (intros [[]|] s1; reflexivity).
  destruct (pk && retry (e_send E (n_tick s)))%bool; rewrite X; cbn [bind]; eexists; eexists; (split; [reflexivity|]); apply acct_quiet; try assumption; destruct who; reflexivity.
Qed.

Lemma session_send_ok : forall p x f s, wf s -> In p (ids s) ->
  exists s' evs, session_send E p x f s = Ok (s', evs) /\ acct (fun y => y = p) s evs s' /\ map fst (fates evs) = [p] /\
    ((e_encrypt E (n_tick s) x f = None /\ evs = [EncryptFailed p f]) \/ exists w, e_encrypt E (n_tick s) x f = Some w /\ Forall (fits p f w) evs).
Proof.
  intros p x f s W Hp. unfold session_send. destruct (get_ok s p Hp) as (q & G & Hq & Hid). rewrite G. cbn [bind]. cbv zeta. destruct (e_encrypt E (n_tick s) x f) as [w|].
  - destruct (fastd_send_ok p (p_local q) f w (tick s) (wf_tick s W) Hp) as (s' & evs & A & B & D & F). exists s', evs. split; [exact A|]. split; [|split; [exact D | right; exists w; auto]].
    change evs with ([] ++ evs). exact (acct_trans _ _ _ _ _ _ (acct_tick _ _ W) B).
  - eexists. eexists. split; [reflexivity|]. split; [|split; [reflexivity | left; auto]]. apply acct_quiet; [apply acct_tick, W | reflexivity | reflexivity].
Qed.

(** As [about], for one peer *)
Definition about1 (q : peer) (f : bytes) (e : event) : Prop :=
  match e with
  | Send who payload w _ _ => exists x t, who = Some (p_id q) /\ payload = Some f /\ usable E q x /\ e_encrypt E t x f = Some w
  | EncryptFailed p g => g = f /\ p = p_id q /\ exists x t, usable E q x /\ e_encrypt E t x f = None
  | Expired p => p = p_id q /\ exists x t, p_sess q = Some x /\ e_valid E t x = false
  | Reset p c => p = p_id q /\ exists x t, p_sess q = Some x /\ e_valid E t x = false
  | Write _ _ _ _ _ | Removed _ => False
  end.
Lemma about1_about : forall q s f e, In q (n_peers s) -> about1 q f e -> about E s f e.
Proof.
  intros q s f e Hq H. destruct e as [who pl w pk r|who i fr ro r|who|who fr|who gone|who]; cbn [about about1] in *; auto.
  - destruct H as (x & t & A & B & D & F). exists (p_id q), q, x, t. split; [exact A|]. split; [exact B|]. split; [split; auto|]. auto.
  - destruct H as (-> & x & t & A & B). exists q, x, t. split; [split; auto | auto].
  - destruct H as (-> & -> & x & t & A & B). split; [reflexivity|]. exists q, x, t. split; [split; auto | auto].
  - destruct H as (-> & x & t & A & B). exists q, x, t. split; [split; auto | auto].
Qed.
Lemma protocol_send_ok : forall p f s q, wf s -> get p s = Ok q -> In q (n_peers s) -> p_id q = p ->
  exists s' evs, protocol_send E p f s = Ok (s', evs) /\ acct (fun y => y = p) s evs s' /\
    map fst (fates evs) = (if est q then [p] else []) /\ Forall (about1 q f) evs.
Proof.
  intros p f s q W G Hq Hid. assert (Hp : In p (ids s)) by (rewrite <- Hid; apply in_map, Hq).
  unfold protocol_send. rewrite G. cbn [bind]. destruct (est q) eqn:Es.
  - destruct (wf_est s W q Hq Es) as [Pr Se]. rewrite Pr. cbn [negb]. assert (St : p_state q = Established) by (unfold est in Es; destruct (p_state q); [discriminate Es | discriminate Es | reflexivity]). rewrite St.
    destruct (check_session_ok p s q W G Hq Hid) as [(x & Hx & Hv & Ck)|(s' & evs & Ck & A & V & Ev)]; rewrite Ck; cbn [bind negb].
    + assert (G' : get p (tick s) = Ok q) by exact G. rewrite G'. cbn [bind].
      assert (Y : exists y, (if use_old_session E q (tick s) then p_old q else p_sess q) = Some y /\ usable E q y).
      { destruct (use_old_session E q (tick s)) eqn:U; [|exists x; split; [exact Hx|]; split; [exists (n_tick s); exact Hv | left; exact Hx]]. unfold use_old_session, is_valid in U. destruct (p_old q) as [y|] eqn:Oy; [|rewrite andb_false_r in U; discriminate U].
        rewrite Hx in U. apply andb_prop in U. destruct U as [U1 U2]. exists y. split; [reflexivity|]. split; [eexists; exact U2|]. right. split; [exact Oy | exists x; auto]. }
      destruct Y as (y & Hy & Hyy). rewrite Hy.
      destruct (session_send_ok p y f (tick (tick s)) (wf_tick _ (wf_tick _ W)) Hp) as (s' & evs & B & D & F & R). rewrite B. cbn [bind fst snd app]. exists s', evs. split; [reflexivity|]. split; [|split; [exact F|]].
      * change evs with (([] ++ []) ++ evs). exact (acct_trans _ _ _ _ _ _ (acct_trans _ _ _ _ _ _ (acct_tick _ _ W) (acct_tick _ _ (wf_tick _ W))) D).
      * destruct R as [(R1 & ->)|(w & R1 & R2)].
        -- constructor; [|constructor]. split; [reflexivity|]. split; [symmetry; exact Hid|]. exists y, (n_tick (tick (tick s))). auto.
        -- apply (Forall_impl _ (P := fits p f w)); [|exact R2]. intros e (pk & r & ->). exists y, (n_tick (tick (tick s))). rewrite Hid. auto.
    + exists s', (Expired p :: evs). rewrite St in Ev. subst evs. split; [reflexivity|]. split; [exact A|]. split; [reflexivity|].
      destruct (p_sess q) as [x|] eqn:Sx; [|contradiction]. constructor; [split; [symmetry; exact Hid | exists x, (n_tick s); auto]|]. constructor; [split; [symmetry; exact Hid | exists x, (n_tick s); auto] | constructor].
  - exists s, []. assert (X : (if negb (p_proto q) then Ok (s, []) else match p_state q with Established =>
        do c <- check_session E p s;
        (let '(ok, s0, ev) := c in
         if negb ok then Ok (s0, ev)
         else do q0 <- get p s0; match (if use_old_session E q0 s0 then p_old q0 else p_sess q0) with Some x => do r <- session_send E p x f (tick s0); Ok (fst r, ev ++ snd r) | None => UB end)
        | _ => Ok (s, []) end) = Ok (s, [])) by (unfold est in Es; destruct (p_proto q); [|reflexivity]; destruct (p_state q); [reflexivity | reflexivity | discriminate Es]).
    split; [exact X|]. split; [apply acct_refl, W|]. split; [reflexivity | constructor].
Qed.

Lemma fates_app : forall a b, fates (a ++ b) = fates a ++ fates b.
Proof. intros a b. unfold fates. apply flat_map_app. Qed.

(** [l]: peers not yet touched since [s0] *)
Definition wanted (s0 : node) (source : option N) (l : list N) : list N :=
  filter (fun p => (negb (opt_is source p) && match find p s0 with Some q => est q | None => false end)%bool) l.
Lemma find_get : forall p s q, get p s = Ok q -> find p s = Some q.
Proof. intros p s q H. unfold get in H. destruct (find p s); [injection H as ->; reflexivity | discriminate H]. Qed.
Lemma others_find : forall p s s' evs P q, acct P s evs s' -> wf s -> ~ P p -> get p s = Ok q -> get p s' = Ok q.
Proof.
  intros p s s' evs P q A W Hn G. assert (Hq : In q (n_peers s) /\ p_id q = p).
  { apply find_get in G. unfold find in G. apply List.find_some in G. destruct G as [G1 G2]. apply N.eqb_eq in G2. auto. }
  destruct Hq as [Hq Hid]. assert (Hq' : In q (n_peers s')) by (apply (a_others _ _ _ _ A); [exact Hq | rewrite Hid; exact Hn]).
  destruct (get_ok s' p) as (q' & G' & Hq2 & Hid2); [rewrite <- Hid; apply in_map, Hq'|]. rewrite G'. f_equal. symmetry. exact (get_unique s' p q' q (a_wf _ _ _ _ A) G' Hq' Hid).
Qed.
Lemma send_all_ok : forall l source f s0 s, wf s -> NoDup l -> incl l (ids s) -> (forall p q, In p l -> opt_is source p = false -> get p s = Ok q -> find p s0 = Some q /\ In q (n_peers s0)) ->
  exists s' evs, send_all E l source f s = Ok (s', evs) /\ acct (fun p => In p l) s evs s' /\
    map fst (fates evs) = wanted s0 source l /\ Forall (about E s0 f) evs.
Proof.
  induction l as [|p l IH]; intros source f s0 s W Nd Hi Hu; cbn [send_all].
  - exists s, []. split; [reflexivity|]. split; [apply acct_refl, W|]. split; [reflexivity | constructor].
  - inversion Nd as [|? ? Hn Nd']; subst. destruct (get_ok s p (Hi p (or_introl eq_refl))) as (q & G & Hq & Hid). rewrite G. cbn [bind].
    unfold wanted. cbn [filter].
    replace (match p_state q with Established => false | _ => true end) with (negb (est q)) by (unfold est; destruct (p_state q); reflexivity).
    destruct (opt_is source p) eqn:So; cbn [orb negb andb].
    { destruct (IH source f s0 s W Nd') as (s' & evs & A & B & D & F); [intros x Hx; apply Hi; right; exact Hx | intros x y Hx; apply Hu; right; exact Hx |]. exists s', evs. split; [exact A|]. split; [|auto].
      apply (acct_weaken (fun x => In x l)); [intros x Hx; right; exact Hx | exact B]. }
    destruct (Hu p q (or_introl eq_refl) So G) as [F0 I0]. rewrite F0.
    destruct (est q) eqn:Es; cbn [negb].
    + destruct (protocol_send_ok p f s q W G Hq Hid) as (s1 & e1 & A1 & B1 & D1 & F1). rewrite A1. cbn [bind fst snd].
      destruct (IH source f s0 s1 (a_wf _ _ _ _ B1) Nd') as (s' & evs & A & B & D & F).
      * intros x Hx. rewrite (a_ids _ _ _ _ B1). apply Hi. right. exact Hx.
      * intros x y Hx Sx Gy. destruct (get_ok s x (Hi x (or_intror Hx))) as (y0 & Gy0 & _).
        assert (Gy1 : get x s1 = Ok y0) by (apply (others_find x s s1 e1 (fun z => z = p) y0 B1 W); [intros ->; exact (Hn Hx) | exact Gy0]).
        assert (y = y0) by congruence. subst y0. apply Hu; [right; exact Hx | exact Sx | exact Gy0].
      * rewrite A. cbn [bind fst snd]. exists s', (e1 ++ evs). split; [reflexivity|]. split; [|split].
        -- apply (acct_trans _ _ _ s1).
           ++ apply (acct_weaken (fun x => x = p)); [intros x ->; left; reflexivity | exact B1].
           ++ apply (acct_weaken (fun x => In x l)); [intros x Hx; right; exact Hx | exact B].
        -- rewrite fates_app, map_app, D1, Es. cbn [app]. f_equal. exact D.
        -- apply Forall_app. split; [|exact F]. apply (Forall_impl _ (P := about1 q f)); [|exact F1]. intros e He. apply (about1_about q s0 f e I0 He).
    + destruct (IH source f s0 s W Nd') as (s' & evs & A & B & D & F); [intros x Hx; apply Hi; right; exact Hx | intros x y Hx; apply Hu; right; exact Hx |]. exists s', evs. split; [exact A|]. split; [|auto].
      apply (acct_weaken (fun x => In x l)); [intros x Hx; right; exact Hx | exact B].
Qed.
End Env.
