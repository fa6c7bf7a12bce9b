(** Consequences of the method correctness lemmas, as used by the property
    theorems. *)
From Verif Require Import Base NonceModel BufferModel BufferProofs MethodModel MethodSpec MethodProofs.

Lemma encrypt_seals sl cf cy sh s b g :
  computes cy sl -> total cy sl -> length (s_send s) = 6 -> enc_ready cf sh b g ->
  exists out s',
    session_encrypt cf cy sh s b g = Ok (Some (out, s')) /\
    seal sl sh (cy_ivlen cy) (cy_mac_ivlen cy) (s_compat s) (s_send s) (b_data b) = Some (b_data out) /\
    length (b_data out) = length (b_data b) + provider_overhead sh /\
    s' = set_send s (increment_nonce (s_send s)).
Proof.
  intros H1 Ht H2 H3. pose proof (session_encrypt_good sl cf cy sh s b g H1 H2 H3) as G.
  unfold enc_good in G.
  destruct (session_encrypt cf cy sh s b g) as [[[out s']|]| | |]; try contradiction.
  - destruct G as [G1 [G2 [G3 G4]]]. exists out, s'.
    refine (conj eq_refl (conj G1 (conj _ G2))).
    destruct G3 as [W1 W2].
    unfold b_data at 1. rewrite length_slice by lia. lia.
Qed.

Lemma encrypt_length sl cf cy sh s b g out s' :
  computes cy sl -> length (s_send s) = 6 -> enc_ready cf sh b g ->
  session_encrypt cf cy sh s b g = Ok (Some (out, s')) ->
  length (b_data out) = length (b_data b) + provider_overhead sh.
Proof.
  intros H1 H2 H3 E. pose proof (session_encrypt_good sl cf cy sh s b g H1 H2 H3) as G.
  rewrite E in G. cbn [enc_good] in G. destruct G as [_ [_ [[W1 W2] L]]].
  unfold b_data at 1. rewrite length_slice; lia.
Qed.

Lemma encrypt_safe sl cf cy sh s b g :
  computes cy sl -> length (s_send s) = 6 -> enc_ready cf sh b g ->
  exists r, session_encrypt cf cy sh s b g = Ok r.
Proof.
  intros H1 H2 H3. pose proof (session_encrypt_good sl cf cy sh s b g H1 H2 H3) as G.
  unfold enc_good in G.
  destruct (session_encrypt cf cy sh s b g) as [r| | |]; try contradiction. now exists r.
Qed.

Lemma decrypt_safe now sl cf cy sh s b g :
  computes cy sl -> dec_ready cf sh b g ->
  exists r, session_decrypt now cf cy sh s b g = Ok r.
Proof.
  intros H1 H2. pose proof (session_decrypt_good now sl cf cy sh s b g H1 H2) as G.
  unfold dec_good in G.
  destruct (session_decrypt now cf cy sh s b g) as [r| | |]; try contradiction. now exists r.
Qed.

Lemma seal_unique sl sh ivl mivl compat n1 p1 n2 p2 pkt :
  (forall m n t, sl_digest sl m n = Some t -> length t = 16) ->
  (forall m k, length (sl_poly sl m k) = 16) ->
  length n1 = 6 -> length n2 = 6 ->
  seal sl sh ivl mivl compat n1 p1 = Some pkt -> seal sl sh ivl mivl compat n2 p2 = Some pkt ->
  n1 = n2 /\ p1 = p2.
Proof.
  intros Hd Hp L1 L2 S1 S2.
  apply seal_inv in S1; try assumption. apply seal_inv in S2; try assumption. cbv zeta in *.
  destruct S1 as [_ [_ [_ [E1 R1]]]]. destruct S2 as [_ [_ [_ [E2 R2]]]].
  assert (E : n1 = n2) by congruence. split; [exact E|]. clear E1 E2. subst n2.
  destruct sh.
  - destruct R1 as [_ [-> _]]. destruct R2 as [_ [-> _]]. reflexivity.
  - destruct R1 as [_ [-> _]]. destruct R2 as [_ [-> _]]. reflexivity.
  - destruct R1 as [_ [-> _]]. destruct R2 as [_ [-> _]]. reflexivity.
  - congruence.
Qed.

Lemma decrypt_opens now sl cf cy sh s b g nonce p age :
  computes cy sl -> total cy sl -> dec_ready cf sh b g ->
  authentic sl sh cy now s (b_data b) nonce p age ->
  exists out s' reordered,
    session_decrypt now cf cy sh s b g = Ok (DecOut out s' reordered) /\
    match reorder_check now s nonce age with
    | RUB => False
    | RDuplicate => s' = s /\ reordered = false /\ b_data out = []
    | RNew s1 => s' = s1 /\ reordered = false /\ b_data out = p
    | RReordered s1 => s' = s1 /\ reordered = true /\ b_data out = p
    end.
Proof.
  intros H1 Ht H2 Ha. pose proof (session_decrypt_good now sl cf cy sh s b g H1 H2) as G.
  unfold dec_good in G.
  destruct (session_decrypt now cf cy sh s b g) as [[b'|out s' r]| | |]; try contradiction.
  - exfalso. destruct G as [_ [_ [_ [_ [_ G]]]]]. exact (G Ht _ _ _ Ha).
  - exists out, s', r. split; [reflexivity|].
    destruct G as [_ [_ [_ [nonce' [p' [age' [Ha' G]]]]]]].
    destruct H1 as [_ [_ [_ [Hd [_ Hp]]]]].
    destruct Ha as [_ [L1 [S1 V1]]]. destruct Ha' as [_ [L2 [S2 V2]]].
    destruct (seal_unique _ _ _ _ _ _ _ _ _ _ Hd Hp L1 L2 S1 S2) as [<- <-].
    assert (age' = age) by congruence. subst age'. exact G.
Qed.

Lemma round_trip now sl cfS cfR cyS cyR sh sS sR bS gS out sS' bR gR age :
  computes cyS sl -> computes cyR sl -> total cyR sl ->
  cy_ivlen cyR = cy_ivlen cyS -> cy_mac_ivlen cyR = cy_mac_ivlen cyS ->
  s_compat sR = s_compat sS -> length (s_send sS) = 6 ->
  enc_ready cfS sh bS gS -> dec_ready cfR sh bR gR ->
  session_encrypt cfS cyS sh sS bS gS = Ok (Some (out, sS')) ->
  b_data bR = b_data out ->
  common_is_valid now sR = true ->
  is_nonce_valid now sR (s_send sS) = Some age ->
  exists o sR' reordered,
    session_decrypt now cfR cyR sh sR bR gR = Ok (DecOut o sR' reordered) /\
    match reorder_check now sR (s_send sS) age with
    | RUB => False
    | RDuplicate => sR' = sR /\ reordered = false /\ b_data o = []
    | RNew s1 => sR' = s1 /\ reordered = false /\ b_data o = b_data bS
    | RReordered s1 => sR' = s1 /\ reordered = true /\ b_data o = b_data bS
    end.
Proof.
  intros C1 C2 T2 I1 I2 Hc Hn R1 R2 E D V A.
  pose proof (session_encrypt_good sl cfS cyS sh sS bS gS C1 Hn R1) as G. rewrite E in G.
  cbn [enc_good] in G. destruct G as [S _].
  apply (decrypt_opens now sl cfR cyR sh sR bR gR (s_send sS) (b_data bS) age C2 T2 R2).
  refine (conj V (conj Hn (conj _ A))).
  rewrite D, I1, I2, Hc. exact S.
Qed.

Lemma decrypt_accepts_only_authentic now sl cf cy sh s b g out s' r :
  computes cy sl -> dec_ready cf sh b g ->
  session_decrypt now cf cy sh s b g = Ok (DecOut out s' r) ->
  exists nonce p age,
    authentic sl sh cy now s (b_data b) nonce p age /\ (b_data out = [] \/ b_data out = p) /\
    (b_data out = [] -> p = [] \/ s' = s).
Proof.
  intros H1 H2 E. pose proof (session_decrypt_good now sl cf cy sh s b g H1 H2) as G.
  rewrite E in G. cbn [dec_good] in G. destruct G as [_ [_ [_ [n [p [age [Ha G]]]]]]].
  exists n, p, age. split; [exact Ha|].
  destruct (reorder_check now s n age); destruct G as [G1 [G2 G3]] || contradiction.
  - split; [left; exact G3|]. right. exact G1.
  - split; [right; exact G3|]. intro E0. left. congruence.
  - split; [right; exact G3|]. intro E0. left. congruence.
Qed.

Lemma rejected_untouched now sl cf cy sh s b g b' :
  computes cy sl -> dec_ready cf sh b g ->
  session_decrypt now cf cy sh s b g = Ok (DecNull b') ->
  b_data b' = b_data b /\ b_off b' = b_off b /\ dec_ready cf sh b' g.
Proof.
  intros H1 H2 E. pose proof (session_decrypt_good now sl cf cy sh s b g H1 H2) as G.
  rewrite E in G. cbn [dec_good] in G. destruct G as [G1 [G2 [G3 [G4 [G5 _]]]]].
  refine (conj G1 (conj G2 _)). unfold dec_ready in *. rewrite G2, G3. tauto.
Qed.

(** Both sessions of a peer. *)
Lemma try_sessions_good now cf old cy sl sh s b g1 g2 :
  computes cy sl -> total cy sl -> dec_ready cf sh b g2 ->
  (forall cyo sho so, old = Some (cyo, sho, so) ->
     exists slo, computes cyo slo /\ dec_ready cf sho b g1) ->
  match try_sessions now cf old cy sh s b g1 g2 with
  | Ok (CurrentSession, r) => dec_good now sl sh cy cf s b (Ok r)
  | Ok (OldSession, r) =>
      exists cyo sho so slo, old = Some (cyo, sho, so) /\ common_is_valid now so = true /\
        computes cyo slo /\ dec_good now slo sho cyo cf so b (Ok r) /\
        (exists o s' re, r = DecOut o s' re)
  | _ => False
  end.
Proof.
  intros H1 Ht H2 Ho. unfold try_sessions.
  pose proof H2 as [Hmb [Hg [W [Hal [Heh [Hehp Hsp]]]]]].
  destruct (zero_pad_good (m_max_buffer cf) b Hmb W) as [b' [E [Eo [El [Ed [W' P']]]]]].
  rewrite E. cbn [bind].
  assert (Hcur : forall b2, b_data b2 = b_data b -> b_off b2 = b_off b -> b_len b2 = b_len b ->
            buf_wf (m_max_buffer cf) b2 -> padded b2 ->
            match bind (method_decrypt sh now cf cy s b2 g2) (fun r2 => Ok (CurrentSession, r2)) with
            | Ok (CurrentSession, r) => dec_good now sl sh cy cf s b (Ok r)
            | _ => False end).
  { intros b2 D2 O2 L2 W2 P2.
    assert (R : dec_ready cf sh b2 g2) by (unfold dec_ready; rewrite O2, L2; auto 10).
    pose proof (method_decrypt_good now sl cf cy sh s b2 g2 H1 R P2) as G.
    destruct (method_decrypt sh now cf cy s b2 g2) as [[b3|o s3 r3]| | |]; cbn [bind dec_good] in *;
      try contradiction; rewrite D2 in G; try rewrite O2, L2 in G; exact G. }
  assert (Hcur' : match bind (method_decrypt sh now cf cy s b' g2) (fun r2 => Ok (CurrentSession, r2)) with
            | Ok (CurrentSession, r) => dec_good now sl sh cy cf s b (Ok r)
            | _ => False end) by (apply Hcur; assumption).
  destruct old as [[[cyo sho] so]|]; cbn [bind].
  2:{ destruct (bind (method_decrypt sh now cf cy s b' g2) _) as [[[|] r]| | |]; try contradiction; exact Hcur'. }
  destruct (common_is_valid now so) eqn:Vo; cbn [bind].
  2:{ destruct (bind (method_decrypt sh now cf cy s b' g2) _) as [[[|] r]| | |]; try contradiction; exact Hcur'. }
  destruct (Ho _ _ _ eq_refl) as [slo [C1 R1]].
  assert (R : dec_ready cf sho b' g1) by (unfold dec_ready in *; rewrite Eo, El; tauto).
  pose proof (method_decrypt_good now slo cf cyo sho so b' g1 C1 R P') as G.
  destruct (method_decrypt sho now cf cyo so b' g1) as [[b3|o s3 r3]| | |]; cbn [bind dec_good] in G |- *;
    try contradiction.
  - destruct G as [G1 [G2 [G3 [G4 [G5 _]]]]].
    assert (Hc : match bind (method_decrypt sh now cf cy s b3 g2) (fun r2 => Ok (CurrentSession, r2)) with
            | Ok (CurrentSession, r) => dec_good now sl sh cy cf s b (Ok r)
            | _ => False end) by (apply Hcur; congruence || assumption).
    destruct (bind (method_decrypt sh now cf cy s b3 g2) _) as [[[|] r]| | |]; try contradiction; exact Hc.
  - exists cyo, sho, so, slo. rewrite Ed in G.
    refine (conj eq_refl (conj Vo (conj C1 (conj G _)))). now exists o, s3, r3.
Qed.

Lemma other_session_accepts now cf old cy sl sh s b g1 g2 nonce p age :
  computes cy sl -> total cy sl -> dec_ready cf sh b g2 ->
  (forall cyo sho so, old = Some (cyo, sho, so) ->
     exists slo, computes cyo slo /\ dec_ready cf sho b g1) ->
  authentic sl sh cy now s (b_data b) nonce p age ->
  exists w o s' re, try_sessions now cf old cy sh s b g1 g2 = Ok (w, DecOut o s' re).
Proof.
  intros H1 Ht H2 Ho Ha.
  pose proof (try_sessions_good now cf old cy sl sh s b g1 g2 H1 Ht H2 Ho) as G.
  destruct (try_sessions now cf old cy sh s b g1 g2) as [[w r]| | |]; try contradiction.
  exists w. destruct w.
  - destruct G as [? [? [? [? [_ [_ [_ [_ [o [s' [re ->]]]]]]]]]]]. now exists o, s', re.
  - cbn [dec_good] in G. destruct r as [b'|o s' re].
    + exfalso. destruct G as [_ [_ [_ [_ [_ G]]]]]. exact (G Ht _ _ _ Ha).
    + now exists o, s', re.
Qed.

(** The null methods *)
Lemma null_round_trip compat ini v b mb :
  buf_wf mb b -> 1 <= b_off b ->
  exists out, null_encrypt {| n_initiator := ini; n_compat := compat; n_valid := v |} b = Ok out /\
    b_data out = packet_type compat :: b_data b /\
    forall r, b_data r = b_data out -> buf_wf mb r -> length (b_data r) = b_len r ->
      exists o, null_decrypt r = Ok o /\ b_data o = b_data b.
Proof.
  intros [W1 W2] Ho. unfold null_encrypt. cbn [n_compat].
  rewrite b_push_from_ok by (cbn [length]; lia). cbn [length].
  eexists. split; [reflexivity|].
  assert (D : b_data {| b_mem := overwrite (b_mem b) (b_off b - 1) [packet_type compat];
                        b_off := b_off b - 1; b_len := b_len b + 1 |} = packet_type compat :: b_data b).
  { unfold b_data. cbn [b_mem b_off b_len]. rewrite (Nat.add_comm (b_len b)), slice_add.
    rewrite slice_overwrite_eq by (reflexivity || lia).
    rewrite slice_overwrite_after by (cbn [length]; lia).
    replace (b_off b - 1 + 1) with (b_off b) by lia. reflexivity. }
  split; [exact D|]. intros r Dr Wr Lr. rewrite D in Dr.
  assert (Hl : 1 <= b_len r) by (rewrite <- Lr, Dr; cbn [length]; lia).
  unfold null_decrypt. rewrite b_pull_ok by lia. eexists. split; [reflexivity|].
  unfold b_data in Dr |- *. cbn [b_mem b_off b_len].
  replace (b_len r) with (1 + (b_len r - 1)) in Dr by lia. rewrite slice_add in Dr.
  destruct Wr as [Wr1 Wr2].
  assert (L1 : length (slice (b_mem r) (b_off r) 1) = 1) by (apply length_slice; lia).
  destruct (slice (b_mem r) (b_off r) 1) as [|x [|? ?]]; cbn [length] in L1; try lia.
  cbn [app] in Dr. injection Dr as _ Dr. exact Dr.
Qed.

Lemma l2tp_decrypt_header r mb p :
  buf_wf mb r -> b_data r = l2tp_header ++ p ->
  exists o, null_l2tp_decrypt r = Ok (Some o) /\ b_data o = p.
Proof.
  intros [W1 W2] D.
  assert (L : length (b_data r) = b_len r) by (unfold b_data; apply length_slice; lia).
  assert (Hl : b_len r = 8 + length p) by (rewrite <- L, D, app_length; reflexivity).
  unfold null_l2tp_decrypt. destruct (Nat.ltb_spec (b_len r) 8); [lia|].
  rewrite read_ok by lia. cbn [bind].
  assert (S : slice (b_mem r) (b_off r) 8 = l2tp_header /\ slice (b_mem r) (b_off r + 8) (length p) = p).
  { unfold b_data in D. rewrite Hl, slice_add in D. apply app_inj_len in D; [exact D|].
    rewrite length_slice by lia. reflexivity. }
  destruct S as [S1 S2]. rewrite S1.
  cbn. rewrite b_pull_ok by lia. eexists. split; [reflexivity|].
  unfold b_data. cbn [b_mem b_off b_len]. replace (b_len r - 8) with (length p) by lia. exact S2.
Qed.

Lemma l2tp_encrypt_data cf b g :
  buf_wf (m_max_buffer cf) b -> 8 <= b_off b -> 0 < b_len b ->
  exists out, null_l2tp_encrypt cf b g = Ok out /\ b_data out = l2tp_header ++ b_data b.
Proof.
  intros [W1 W2] Ho Hl. unfold null_l2tp_encrypt. destruct (Nat.eqb_spec (b_len b) 0); [lia|].
  assert (LH : length l2tp_header = 8) by reflexivity.
  rewrite b_push_from_ok by lia. eexists. split; [reflexivity|].
  unfold b_data. cbn [b_mem b_off b_len]. rewrite LH.
  rewrite (Nat.add_comm (b_len b)), slice_add.
  rewrite slice_overwrite_eq by lia. rewrite slice_overwrite_after by lia.
  replace (b_off b - 8 + 8) with (b_off b) by lia. reflexivity.
Qed.

Lemma l2tp_encrypt_keepalive cf b g :
  m_max_buffer cf mod 16 = 0 -> 32 <= m_max_buffer cf -> length g = m_max_buffer cf -> b_len b = 0 ->
  exists out, null_l2tp_encrypt cf b g = Ok out /\ b_data out = l2tp_control_header ++ l2tp_header.
Proof.
  intros Hmb Hsz Hg Hl. unfold null_l2tp_encrypt. rewrite Hl. cbn [Nat.eqb].
  rewrite b_alloc_ok by lia. cbn [bind].
  assert (LH : length l2tp_header = 8) by reflexivity.
  assert (LC : length l2tp_control_header = 12) by reflexivity.
  rewrite b_push_from_ok by (cbn [b_off b_mem]; lia). cbn [bind b_mem b_off b_len].
  assert (LM : length (overwrite g (12 + 8 - length l2tp_header) l2tp_header) = length g)
    by (apply length_overwrite; lia).
  rewrite b_push_from_ok by (cbn [b_off b_mem]; rewrite ?LM; lia).
  eexists. split; [reflexivity|]. unfold b_data. cbn [b_mem b_off b_len].
  rewrite LH in *. rewrite LC.
  replace (12 + 8 - 8 - 12) with 0 by lia. replace (0 + 8 + 12) with (12 + 8) by lia.
  rewrite slice_add. rewrite slice_overwrite_eq by lia.
  rewrite slice_overwrite_after by lia.
  rewrite slice_overwrite_eq by lia. reflexivity.
Qed.
