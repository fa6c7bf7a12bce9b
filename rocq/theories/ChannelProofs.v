(** A session is a channel: proofs. *)
From Verif Require Import Base BaseLemmas NonceModel NonceSpec NonceProofs BufferModel BufferProofs MethodModel
  MethodSpec MethodProofs MethodProofs2 ChannelModel ChannelSpec.
Local Open Scope Z_scope.

(** ** The acceptance rule in terms of packet numbers *)

Definition num (first : Z) (a : Z * Z) : arrival := mk_arrival (fst a) (first + 2 * (snd a + 1)).

Lemma number_ok_odd first k : 0 <= first <= 1 ->
  Z.odd ((first + 2 * (k + 1)) / 2 ^ 40) = negb (number_ok k).
Proof.
  intros H. unfold number_ok. rewrite negb_involutive. f_equal.
  change (2 ^ 40) with (2 * 2 ^ 39). rewrite <- Z.div_div by lia. f_equal.
  rewrite (Z.mul_comm 2 (k + 1)), Z.div_add by lia. rewrite Z.div_small by lia. lia.
Qed.

Lemma newest_num first h m : newest (map (num first) h) = Some m ->
  exists a, In a h /\ num first a = m /\ forall b, In b h -> snd b <= snd a.
Proof.
  intros E. apply newest_max in E as [Hin Hmax]. apply in_map_iff in Hin as (a & <- & Ha).
  exists a. refine (conj Ha (conj eq_refl _)). intros b Hb.
  specialize (Hmax (num first b) (in_map _ _ _ Hb)). cbn [num a_nonce] in Hmax. lia.
Qed.

Lemma NoDup_snd_inj (h : list (Z * Z)) a b :
  NoDup (map snd h) -> In a h -> In b h -> snd a = snd b -> a = b.
Proof.
  induction h as [|x h IH]; intros N Ha Hb E; [destruct Ha|].
  cbn [map] in N. inversion N as [|? ? Nx N']; subst.
  destruct Ha as [<- | Ha], Hb as [<- | Hb]; auto.
  - exfalso. apply Nx. rewrite E. now apply in_map.
  - exfalso. apply Nx. rewrite <- E. now apply in_map.
Qed.

Lemma verdict_acceptable first h t k :
  0 <= first <= 1 -> NoDup (map snd h) -> 0 <= k ->
  spec_verdict first (map (num first) h) t (first + 2 * (k + 1)) =
  if acceptable h t k then (if newer h k then VNew else VReordered) else VRejected.
Proof.
  intros Hf N Hk. unfold spec_verdict, acceptable. rewrite number_ok_odd by exact Hf.
  destruct (number_ok k); cbn [negb andb]; [|reflexivity].
  destruct (newest (map (num first) h)) as [m|] eqn:Em.
  - apply newest_num in Em as (a & Ha & Ea & Hmax).
    assert (En : a_nonce m = first + 2 * (snd a + 1)) by (subst m; reflexivity).
    assert (Et : a_time m = fst a) by (subst m; reflexivity).
    assert (Hn : newer h k = (a_nonce m <? first + 2 * (k + 1))).
    { unfold newer. destruct (Z.ltb_spec (a_nonce m) (first + 2 * (k + 1))) as [L|L].
      - apply forallb_forall. intros b Hb. specialize (Hmax b Hb). apply Z.ltb_lt. lia.
      - apply not_true_iff_false. intros F. rewrite forallb_forall in F. specialize (F a Ha).
        apply Z.ltb_lt in F. lia. }
    rewrite Hn. destruct (Z.ltb_spec (a_nonce m) (first + 2 * (k + 1))) as [L|L]; cbn [orb]; [reflexivity|].
    assert (Hs : accepted_before (map (num first) h) (first + 2 * (k + 1)) = seen h k).
    { unfold accepted_before, seen. clear. induction h as [|x h IH]; [reflexivity|].
      cbn [map existsb]. rewrite IH. f_equal. cbn [num a_nonce].
      destruct (Z.eqb_spec (first + 2 * (snd x + 1)) (first + 2 * (k + 1))), (Z.eqb_spec (snd x) k); lia. }
    rewrite Hs. destruct (seen h k); cbn [negb andb]; [reflexivity|].
    destruct (Z.leb_spec (first + 2 * (k + 1)) first); [lia|].
    assert (Hr : recent h t k = (a_nonce m - (first + 2 * (k + 1)) <=? 2 * 64) && (t <? a_time m + 10000)).
    { unfold recent. apply eq_true_iff_eq. rewrite existsb_exists, andb_true_iff, Z.leb_le, Z.ltb_lt. split.
      - intros (b & Hb & F). rewrite !andb_true_iff, forallb_forall, Z.leb_le, Z.ltb_lt in F.
        destruct F as [[F1 F2] F3].
        assert (b = a). { apply (NoDup_snd_inj h); auto. specialize (F1 a Ha). apply Z.leb_le in F1.
                          specialize (Hmax b Hb). lia. }
        subst b. lia.
      - intros [F1 F2]. exists a. split; [exact Ha|].
        rewrite !andb_true_iff, forallb_forall, Z.leb_le, Z.ltb_lt. split; [split|]; [|lia|lia].
        intros b Hb. apply Z.leb_le. now apply Hmax. }
    rewrite Hr. destruct (_ && _); reflexivity.
  - apply newest_None in Em. apply map_eq_nil in Em. subst h. cbn [newer forallb orb].
    destruct (Z.ltb_spec first (first + 2 * (k + 1))); [reflexivity|lia].
Qed.

Lemma acceptable_not_seen h t k : acceptable h t k = true -> ~ In k (map snd h).
Proof.
  unfold acceptable. intros A Hin. apply in_map_iff in Hin as (a & Ea & Ha).
  apply andb_true_iff in A as [_ A]. apply orb_true_iff in A as [A|A].
  - unfold newer in A. rewrite forallb_forall in A. specialize (A a Ha). apply Z.ltb_lt in A. lia.
  - apply andb_true_iff in A as [A _]. apply negb_true_iff in A. unfold seen in A.
    assert (T : existsb (fun a => snd a =? k) h = true).
    { apply existsb_exists. exists a. split; [exact Ha|]. now apply Z.eqb_eq. }
    congruence.
Qed.

(** ** The sending side *)

Lemma set_window_recv s r w n : s_send (set_window s r w n) = s_send s /\
  s_compat (set_window s r w n) = s_compat s /\ s_valid_till (set_window s r w n) = s_valid_till s.
Proof. now destruct s. Qed.

Lemma reorder_keeps now s nonce age s' :
  (reorder_check now s nonce age = RNew s' \/ reorder_check now s nonce age = RReordered s') ->
  s_send s' = s_send s /\ s_compat s' = s_compat s /\ s_valid_till s' = s_valid_till s.
Proof.
  unfold reorder_check. intros H.
  destruct (age <? 0).
  - destruct (if (64 <=? Z.to_N (- age))%N then Some 0%N else shl64 (s_seen s) (Z.to_N (- age))) as [seen1|];
      [|destruct H; discriminate].
    match type of H with context [match ?x with None => RUB | Some _ => _ end] => destruct x as [seen2|] end;
      [|destruct H; discriminate].
    destruct H as [H|H]; [|discriminate]. injection H as <-. apply set_window_recv.
  - destruct (age =? 0); [destruct H; discriminate|].
    destruct (shl64 1 (Z.to_N (age - 1))) as [b|]; [|destruct H; discriminate].
    destruct (negb _); [destruct H; discriminate|].
    destruct H as [H|H]; [discriminate|]. injection H as <-. apply set_window_recv.
Qed.

Lemma decrypt_keeps now sl cf cy sh s b g out s' r :
  computes cy sl -> dec_ready cf sh b g ->
  session_decrypt now cf cy sh s b g = Ok (DecOut out s' r) ->
  s_send s' = s_send s /\ s_compat s' = s_compat s /\ s_valid_till s' = s_valid_till s.
Proof.
  intros C R E. pose proof (session_decrypt_good now sl cf cy sh s b g C R) as G.
  rewrite E in G. cbn [dec_good] in G. destruct G as (_ & _ & _ & nonce & p & age & _ & G).
  destruct (reorder_check now s nonce age) as [| |s1|s1] eqn:Er; [destruct G| | |].
  - destruct G as (-> & _). auto.
  - destruct G as (-> & _). apply (reorder_keeps now s nonce age). auto.
  - destruct G as (-> & _). apply (reorder_keeps now s nonce age). auto.
Qed.

Lemma superseded_compat now s : s_compat (common_superseded now s) = s_compat s.
Proof. unfold common_superseded. destruct (_ <? _); reflexivity. Qed.

Definition seal_of (sl : sealing) (e : chan_end) (compat : bool) (nonce p : bytes) : option bytes :=
  seal sl (ce_sh e) (cy_ivlen (ce_cy e)) (cy_mac_ivlen (ce_cy e)) compat nonce p.

Lemma chan_step_sends sl e s o :
  computes (ce_cy e) sl -> total (ce_cy e) sl ->
  nonce_wf (s_send s) -> nval (s_send s) < 2 ^ 48 - 2 ^ 32 + 2 -> op_ready e o ->
  exists s' ev, chan_step e s o = Ok (s', ev) /\
    s_compat s' = s_compat s /\ nonce_wf (s_send s') /\ nval (s_send s') < 2 ^ 48 - 2 ^ 32 + 2 /\
    match o, ev with
    | OSend _ b _, Sent pkt =>
        seal_of sl e (s_compat s) (s_send s) (b_data b) = Some pkt /\ nval (s_send s') = nval (s_send s) + 2
    | _, Sent _ => False
    | _, _ => s_send s' = s_send s
    end.
Proof.
  intros C T W B R. destruct o as [t b g|t b g|t]; cbn [chan_step op_ready] in *.
  - destruct (common_is_valid t s) eqn:V.
    + destruct (encrypt_seals sl _ _ _ s b g C T (proj2 W) R) as (out & s' & E & Sl & _ & ->).
      rewrite E. cbn [bind]. eexists _, _. split; [reflexivity|].
      cbn [set_send s_send s_compat].
      pose proof (is_valid_nval t s W V) as HB. pose proof (nval_range _ W) as HR.
      destruct (increment_nonce_spec _ W) as [W' V'].
      rewrite Z.mod_small in V' by lia. repeat split; try apply W'; try lia. exact Sl.
    + eexists _, _. split; [reflexivity|]. auto.
  - destruct R as [_ R].
    destruct (decrypt_safe t sl _ _ _ s b g C R) as [[b'|out s' r] E]; rewrite E; cbn [bind].
    + eexists _, _. split; [reflexivity|]. auto.
    + destruct (decrypt_keeps _ _ _ _ _ _ _ _ _ _ _ C R E) as (K1 & K2 & _).
      destruct (Nat.eqb (b_len out) 0); eexists _, _; (split; [reflexivity|]); rewrite K1, K2; auto.
  - eexists _, _. split; [reflexivity|]. rewrite superseded_send, superseded_compat. auto.
Qed.

Lemma chan_run_sends sl e ops : forall s,
  computes (ce_cy e) sl -> total (ce_cy e) sl ->
  nonce_wf (s_send s) -> nval (s_send s) < 2 ^ 48 - 2 ^ 32 + 2 -> Forall (op_ready e) ops ->
  exists evs, chan_run e s ops = Ok evs /\
    forall k p pkt, nth_error (sent ops evs) k = Some (p, pkt) ->
      exists nonce, nonce_wf nonce /\ nval nonce = nval (s_send s) + 2 * Z.of_nat k /\
        seal_of sl e (s_compat s) nonce p = Some pkt.
Proof.
  induction ops as [|o ops IH]; intros s C T W B R; cbn [chan_run].
  - exists []. split; [reflexivity|]. intros [|k] p pkt H; discriminate.
  - inversion R as [|? ? Ro R']; subst.
    destruct (chan_step_sends sl e s o C T W B Ro) as (s' & ev & E & Kc & W' & B' & H).
    rewrite E. cbn [bind]. destruct (IH s' C T W' B' R') as (evs & E2 & H2). rewrite E2. cbn [bind].
    exists (ev :: evs). split; [reflexivity|]. rewrite Kc in H2.
    assert (D : (sent (o :: ops) (ev :: evs) = sent ops evs /\ s_send s' = s_send s) \/
                exists p pkt, sent (o :: ops) (ev :: evs) = (p, pkt) :: sent ops evs /\
                  seal_of sl e (s_compat s) (s_send s) p = Some pkt /\ nval (s_send s') = nval (s_send s) + 2).
    { destruct o as [t b g|t b g|t], ev; cbn [sent]; try (destruct H; fail); try (left; split; [reflexivity|exact H]).
      right. exists (b_data b), pkt. split; [reflexivity|exact H]. }
    destruct D as [[-> Es] | (p0 & pkt0 & -> & Sl & Ev)].
    + rewrite Es in H2. exact H2.
    + intros [|k] p pkt N; cbn [nth_error] in N.
      * injection N as <- <-. exists (s_send s). split; [exact W|]. split; [lia|exact Sl].
      * destruct (H2 k p pkt N) as (nonce & N1 & N2 & N3). exists nonce. split; [exact N1|]. split; [lia|exact N3].
Qed.

(** ** The receiving side *)

Lemma win_inv_ext first h s s' :
  s_recv s' = s_recv s -> s_reorder_timeout s' = s_reorder_timeout s -> s_seen s' = s_seen s ->
  win_inv first h s -> win_inv first h s'.
Proof.
  intros E1 E2 E3 [H1 H2 H3 H4 H5 H6 H7 H8]. constructor; rewrite ?E1, ?E2, ?E3; assumption.
Qed.

Record chan_inv (ini compat : bool) (s : session) (c : chan) : Prop := {
  ci_compat : s_compat s = compat;
  ci_end : s_valid_till s = c_end c;
  ci_wf : nonce_wf (s_send s);
  ci_sent : nval (s_send s) = (if ini then 3 else 2) + 2 * c_sent c;
  ci_bound : nval (s_send s) < 2 ^ 48 - 2 ^ 32 + 2;
  ci_nodup : NoDup (map snd (c_hist c));
  ci_win : win_inv (first_nonce ini) (map (num (first_nonce ini)) (c_hist c)) s
}.

Lemma init_chan_inv now ini compat rnd :
  chan_inv ini compat (common_init now ini compat rnd) (chan_fresh now).
Proof.
  destruct (init_send_wf now ini compat rnd) as [W V].
  constructor; cbn [chan_fresh c_end c_sent c_hist map]; auto.
  - rewrite V. destruct ini; lia.
  - rewrite V. destruct ini; lia.
  - constructor.
  - apply init_win_inv.
Qed.

Lemma valid_open ini compat s c t : chan_inv ini compat s c ->
  common_is_valid t s = chan_open c t.
Proof.
  intros I. pose proof (ci_wf _ _ _ _ I) as W. pose proof (ci_sent _ _ _ _ I) as Es.
  pose proof (ci_end _ _ _ _ I) as Ee. unfold chan_open. rewrite <- Ee.
  destruct (nonce_cases _ W) as (a & b & x & d & e & f & E & Ha & Hb & Hc & Hd & He & Hf).
  rewrite E, nval_eq in Es. unfold common_is_valid, timed_out. rewrite E. cbn [nth].
  assert (P : negb (s_valid_till s <=? t) = (t <? s_valid_till s)).
  { destruct (Z.leb_spec (s_valid_till s) t), (Z.ltb_spec t (s_valid_till s)); cbn [negb]; lia. }
  rewrite P. change (2 ^ 47 - 2 ^ 31 - 1) with 140735340871679.
  destruct (N.eqb_spec a 255) as [->|Na], (N.eqb_spec b 255) as [->|Nb]; cbn [andb];
    destruct (Z.ltb_spec (c_sent c) 140735340871679); rewrite ?andb_true_r, ?andb_false_r;
    try reflexivity; exfalso; destruct ini; lia.
Qed.

Lemma superseded_till now s : s_valid_till (common_superseded now s) = Z.min (s_valid_till s) (now + 60000).
Proof.
  unfold common_superseded. change KEY_VALID_OLD with 60000.
  destruct (Z.ltb_spec (now + 60000) (s_valid_till s)); cbn [s_valid_till]; lia.
Qed.

Lemma superseded_window now s :
  s_recv (common_superseded now s) = s_recv s /\
  s_reorder_timeout (common_superseded now s) = s_reorder_timeout s /\
  s_seen (common_superseded now s) = s_seen s.
Proof. unfold common_superseded. destruct (_ <? _); auto. Qed.

Lemma wf_data_nil mb out : buf_wf mb out -> (Nat.eqb (b_len out) 0 = match b_data out with [] => true | _ => false end).
Proof.
  intros [W1 W2].
  assert (L : length (b_data out) = b_len out) by (unfold b_data; apply length_slice; lia).
  destruct (b_data out) as [|x l]; cbn [length] in L; rewrite <- L; reflexivity.
Qed.

Lemma first_range ini : 0 <= first_nonce ini <= 1.
Proof. destruct ini; cbn; lia. Qed.

(** A copy of a packet of the other end arrives. *)
Lemma step_recv_known sl e ini compat s c t b g k nonce p :
  computes (ce_cy e) sl -> total (ce_cy e) sl ->
  chan_inv ini compat s c -> 0 <= t -> dec_ready (ce_cf e) (ce_sh e) b g ->
  nonce_wf nonce -> nval nonce = first_nonce ini + 2 * (Z.of_nat k + 1) ->
  seal_of sl e compat nonce p = Some (b_data b) ->
  exists s' ev, chan_step e s (ORecv t b g) = Ok (s', ev) /\
    (if chan_open c t && acceptable (c_hist c) t (Z.of_nat k) then
       chan_inv ini compat s'
         {| c_end := c_end c; c_sent := c_sent c; c_hist := (t, Z.of_nat k) :: c_hist c |} /\
       ev = match p with [] => Dropped | _ => Delivered p (negb (newer (c_hist c) (Z.of_nat k))) end
     else s' = s /\ ev = Dropped).
Proof.
  intros C T I Ht R W En Sl. cbn [chan_step].
  pose proof (session_decrypt_good t sl _ _ _ s b g C R) as G.
  pose proof (ci_compat _ _ _ _ I) as Ec.
  pose proof (ci_nodup _ _ _ _ I) as Nd.
  pose proof (first_range ini) as Fr.
  assert (Hp : (nval nonce - first_nonce ini) mod 2 = 0).
  { rewrite En. replace (first_nonce ini + 2 * (Z.of_nat k + 1) - first_nonce ini) with ((Z.of_nat k + 1) * 2) by lia.
    apply Z.mod_mul. lia. }
  destruct (accept_refines _ _ s t nonce Ht (ci_win _ _ _ _ I) W Hp) as [Ev Iw].
  rewrite En in Ev, Iw.
  rewrite verdict_acceptable in Ev, Iw by (auto; lia).
  assert (Au : forall age, common_is_valid t s = true -> is_nonce_valid t s nonce = Some age ->
                 authentic sl (ce_sh e) (ce_cy e) t s (b_data b) nonce p age).
  { intros age V A. refine (conj V (conj (proj2 W) (conj _ A))). rewrite Ec. exact Sl. }
  rewrite <- (valid_open _ _ _ _ t I).
  destruct (session_decrypt t (ce_cf e) (ce_cy e) (ce_sh e) s b g) as [[b'|out s' r]| | |] eqn:E;
    cbn [dec_good] in G; try contradiction; cbn [bind].
  - (* refused *)
    destruct G as (_ & _ & _ & _ & _ & G). specialize (G T nonce p).
    eexists _, _. split; [reflexivity|].
    destruct (common_is_valid t s) eqn:V; cbn [andb]; [|auto].
    destruct (acceptable (c_hist c) t (Z.of_nat k)) eqn:A; [|auto]. exfalso.
    unfold accept_nonce in Ev. destruct (is_nonce_valid t s nonce) as [age|] eqn:Ea.
    + exact (G age (Au age eq_refl eq_refl)).
    + cbn [snd] in Ev. destruct (newer _ _); discriminate.
  - destruct G as (Wo & _ & _ & nonce' & p' & age & (V & L' & Sl' & Av) & G).
    assert (En' : nonce' = nonce /\ p' = p).
    { destruct C as [_ [_ [_ [Hd [_ Hpo]]]]]. rewrite Ec in Sl'. 
      apply (seal_unique _ _ _ _ _ _ _ _ _ _ Hd Hpo L' (proj2 W) Sl' Sl). }
    destruct En' as [-> ->]. rewrite V. cbn [andb]. rewrite (wf_data_nil _ _ Wo).
    unfold accept_nonce in Ev, Iw. rewrite Av in Ev, Iw.
    destruct (reorder_check t s nonce age) as [| |s1|s1] eqn:Er; [destruct G| | |]; cbn [fst snd] in Ev, Iw.
    + (* duplicate *)
      destruct G as (-> & -> & ->). eexists _, _. split; [reflexivity|].
      destruct (acceptable (c_hist c) t (Z.of_nat k)); [|auto]. destruct (newer _ _); discriminate.
    + destruct G as (-> & -> & ->).
      destruct (acceptable (c_hist c) t (Z.of_nat k)) eqn:A; [|discriminate].
      destruct (newer (c_hist c) (Z.of_nat k)) eqn:Nw; [|discriminate]. cbn [is_accepted negb] in Iw |- *.
      destruct (reorder_keeps t s nonce age s1 (or_introl Er)) as (K1 & K2 & K3).
      exists s1, (match p with [] => Dropped | _ => Delivered p false end).
      split; [destruct p; reflexivity|]. split; [|reflexivity].
      constructor; cbn [c_end c_sent c_hist map]; rewrite ?K1, ?K2, ?K3; try apply I; [|exact Iw].
      constructor; [|exact Nd]. apply (acceptable_not_seen _ _ _ A).
    + destruct G as (-> & -> & ->).
      destruct (acceptable (c_hist c) t (Z.of_nat k)) eqn:A; [|discriminate].
      destruct (newer (c_hist c) (Z.of_nat k)) eqn:Nw; [discriminate|]. cbn [is_accepted negb] in Iw |- *.
      destruct (reorder_keeps t s nonce age s1 (or_intror Er)) as (K1 & K2 & K3).
      exists s1, (match p with [] => Dropped | _ => Delivered p true end).
      split; [destruct p; reflexivity|]. split; [|reflexivity].
      constructor; cbn [c_end c_sent c_hist map]; rewrite ?K1, ?K2, ?K3; try apply I; [|exact Iw].
      constructor; [|exact Nd]. apply (acceptable_not_seen _ _ _ A).
Qed.

Lemma step_recv_foreign sl e ini compat s c t b g :
  computes (ce_cy e) sl -> chan_inv ini compat s c -> dec_ready (ce_cf e) (ce_sh e) b g ->
  (forall nonce q, length nonce = 6%nat -> seal_of sl e compat nonce q <> Some (b_data b)) ->
  chan_step e s (ORecv t b g) = Ok (s, Dropped).
Proof.
  intros C I R F. cbn [chan_step].
  destruct (decrypt_safe t sl _ _ _ s b g C R) as [[b'|out s' r] E]; rewrite E; cbn [bind]; [reflexivity|].
  exfalso. destruct (decrypt_accepts_only_authentic _ _ _ _ _ _ _ _ _ _ _ C R E) as
    (nonce & p & age & (_ & L & Sl & _) & _).
  rewrite (ci_compat _ _ _ _ I) in Sl. exact (F nonce p L Sl).
Qed.

Lemma chan_step_spec sl e ini compat pkts s c o p :
  computes (ce_cy e) sl -> total (ce_cy e) sl -> chan_inv ini compat s c -> op_ready e o ->
  (forall k q pkt, nth_error pkts k = Some (q, pkt) ->
     exists nonce, nonce_wf nonce /\ nval nonce = first_nonce ini + 2 * (Z.of_nat k + 1) /\
       seal_of sl e compat nonce q = Some pkt) ->
  carries sl e compat pkts o p ->
  exists s' ev, chan_step e s o = Ok (s', ev) /\
    chan_inv ini compat s' (fst (chan_spec_step (map fst pkts) c p)) /\
    looks ev (snd (chan_spec_step (map fst pkts) c p)).
Proof.
  intros C T I R P Ca. destruct o as [t b g|t b g|t], p as [t'|t' k|t']; cbn [carries] in Ca;
    try (destruct Ca; fail); try (destruct k; destruct Ca; fail).
  - (* send *) subst t'. cbn [op_ready chan_step chan_spec_step] in *.
    rewrite (valid_open _ _ _ _ t I). destruct (chan_open c t) eqn:V; cbn [fst snd].
    + destruct (encrypt_seals sl _ _ _ s b g C T (proj2 (ci_wf _ _ _ _ I)) R) as (out & s' & E & _ & _ & ->).
      rewrite E. cbn [bind]. eexists _, _. split; [reflexivity|]. split; [|exact Logic.I].
      rewrite <- (valid_open _ _ _ _ t I) in V.
      pose proof (ci_wf _ _ _ _ I) as W. pose proof (ci_sent _ _ _ _ I) as Es.
      pose proof (is_valid_nval t s W V) as HB. pose proof (nval_range _ W) as HR.
      destruct (increment_nonce_spec _ W) as [W' V']. rewrite Z.mod_small in V' by lia.
      constructor; cbn [set_send s_send s_compat s_valid_till c_end c_sent c_hist]; try apply I; try lia.
      * exact W'.
      * apply (win_inv_ext _ _ s); try reflexivity. apply I.
    + eexists _, _. split; [reflexivity|]. split; [exact I|exact Logic.I].
  - (* receive *) destruct R as [Ht R]. destruct k as [k|].
    + destruct Ca as [<- (q & Nq)]. destruct (P k q _ Nq) as (nonce & W & En & Sl).
      destruct (step_recv_known sl e ini compat s c t b g k nonce q C T I Ht R W En Sl)
        as (s' & ev & E & H).
      exists s', ev. split; [exact E|]. cbn [chan_spec_step].
      assert (Nt : nth k (map fst pkts) [] = q).
      { apply nth_error_nth. rewrite nth_error_map, Nq. reflexivity. }
      rewrite Nt. destruct (chan_open c t && acceptable (c_hist c) t (Z.of_nat k)); cbn [fst snd].
      * destruct H as [H ->]. split; [exact H|]. destruct q; cbn [looks]; auto.
      * destruct H as [-> ->]. split; [exact I|exact Logic.I].
    + destruct Ca as [<- F]. exists s, Dropped. cbn [chan_spec_step fst snd].
      split; [|split; [exact I|exact Logic.I]].
      apply (step_recv_foreign sl e ini compat s c t b g C I R F).
  - (* superseded *) subst t'. cbn [chan_step chan_spec_step fst snd].
    eexists _, _. split; [reflexivity|]. split; [|exact Logic.I].
    destruct (superseded_window t s) as (K1 & K2 & K3).
    constructor; cbn [c_end c_sent c_hist]; rewrite ?superseded_compat, ?superseded_till, ?superseded_send; try apply I.
    + now rewrite (ci_end _ _ _ _ I).
    + apply (win_inv_ext _ _ s); auto. apply I.
Qed.

Lemma chan_run_spec sl e ini compat pkts ops : forall plans s c,
  computes (ce_cy e) sl -> total (ce_cy e) sl -> chan_inv ini compat s c -> Forall (op_ready e) ops ->
  (forall k q pkt, nth_error pkts k = Some (q, pkt) ->
     exists nonce, nonce_wf nonce /\ nval nonce = first_nonce ini + 2 * (Z.of_nat k + 1) /\
       seal_of sl e compat nonce q = Some pkt) ->
  Forall2 (carries sl e compat pkts) ops plans ->
  exists evs, chan_run e s ops = Ok evs /\
    Forall2 looks evs (chan_spec_run (map fst pkts) c plans).
Proof.
  induction ops as [|o ops IH]; intros plans s c C T I R P F; inversion F as [|? p ? plans' Fo F']; subst.
  - exists []. split; [reflexivity|constructor].
  - inversion R as [|? ? Ro R']; subst. cbn [chan_run chan_spec_run].
    destruct (chan_step_spec sl e ini compat pkts s c o p C T I Ro P Fo) as (s' & ev & E & I' & L).
    rewrite E. cbn [bind]. destruct (chan_spec_step (map fst pkts) c p) as [c' x]. cbn [fst snd] in I', L.
    destruct (IH plans' s' c' C T I' R' P F') as (evs & E2 & L2). rewrite E2. cbn [bind].
    exists (ev :: evs). split; [reflexivity|]. constructor; assumption.
Qed.

(** ** Both ends *)

Lemma channel_exact sl eS eR ini compat t0 r0 opsS t1 r1 opsR plans :
  same_keys sl eS eR -> Forall (op_ready eS) opsS -> Forall (op_ready eR) opsR ->
  exists evS evR,
    chan_run eS (common_init t0 ini compat r0) opsS = Ok evS /\
    chan_run eR (common_init t1 (negb ini) compat r1) opsR = Ok evR /\
    (Forall2 (carries sl eR compat (sent opsS evS)) opsR plans ->
     Forall2 looks evR (chan_spec_run (map fst (sent opsS evS)) (chan_fresh t1) plans)).
Proof.
  intros (C1 & T1 & C2 & T2 & I1 & I2 & Es) RS RR.
  destruct (init_send_wf t0 ini compat r0) as [W V].
  destruct (chan_run_sends sl eS opsS _ C1 T1 W) as (evS & ES & HS); [rewrite V; destruct ini; lia|exact RS|].
  destruct (init_send_wf t1 (negb ini) compat r1) as [W1 V1].
  destruct (chan_run_sends sl eR opsR _ C2 T2 W1) as (evR & ER & _); [rewrite V1; destruct ini; cbn [negb]; lia|exact RR|].
  exists evS, evR. split; [exact ES|]. split; [exact ER|]. intros F.
  destruct (chan_run_spec sl eR (negb ini) compat (sent opsS evS) opsR plans _ (chan_fresh t1) C2 T2
              (init_chan_inv t1 (negb ini) compat r1) RR) as (evs & E & L).
  - intros k q pkt N. destruct (HS k q pkt N) as (nonce & N1 & N2 & N3). exists nonce.
    split; [exact N1|]. split.
    + rewrite N2, V. destruct ini; cbn [negb first_nonce]; lia.
    + unfold seal_of in *. rewrite I1, I2, Es. exact N3.
  - exact F.
  - rewrite E in ER. injection ER as ->. exact L.
Qed.
