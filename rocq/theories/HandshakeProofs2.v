(** Proofs about the handling of handshake packets, the messages of the
    protocol and method negotiation. *)
From Verif Require Import Base BaseLemmas BufferModel BufferProofs MethodModel HandshakeModel HandshakeSpec HandshakeProofs.

Lemma bytes_eqb_spec a b : reflect (a = b) (bytes_eqb a b).
Proof. unfold bytes_eqb. destruct (list_eq_dec N.eq_dec a b); constructor; assumption. Qed.

Lemma c_str_prefix d : firstn (length (c_str d)) d = c_str d.
Proof.
  induction d as [|b d IH]; [reflexivity|]. cbn [c_str]. destruct (N.eqb b 0); [reflexivity|].
  cbn [length firstn]. now rewrite IH.
Qed.

Lemma string_equal_spec str d : string_equal str d = bytes_eqb (c_str d) str.
Proof.
  unfold string_equal. destruct (bytes_eqb_spec (c_str d) str) as [<-|Hne].
  - rewrite c_str_prefix, Nat.eqb_refl. destruct (bytes_eqb_spec (c_str d) (c_str d)); [reflexivity|congruence].
  - destruct (Nat.eqb_spec (length str) (length (c_str d))) as [E|E]; [|reflexivity]. cbn [andb].
    rewrite E, c_str_prefix. destruct (bytes_eqb_spec str (c_str d)); [congruence|reflexivity].
Qed.

Lemma c_str_id m : ~ In 0%N m -> c_str m = m.
Proof.
  induction m as [|b m IH]; intro H; [reflexivity|]. cbn [c_str].
  destruct (N.eqb_spec b 0) as [->|Hb]; [exfalso; apply H; now left|].
  rewrite IH; [reflexivity|]. intro Hi. apply H. now right.
Qed.

(** ** Values *)
Lemma value_some pkt h t v :
  records_inside pkt h -> value pkt h t = Some v ->
  rec_present h t = true /\ rec_len h t = length v /\ rec_read pkt h t (length v) = Ok v /\
  (1 <= length v -> as_uint8 pkt h t = Ok (nth 0 v 0%N)).
Proof.
  intros [H1 H2] Hv. unfold value in Hv. unfold rec_present, rec_len, rec_read, as_uint8.
  destruct (h_records h t) as [[o n]|] eqn:E; [|discriminate]. injection Hv as Hv.
  destruct (H2 t o n E) as [_ [_ H3]].
  assert (L : length v = n) by (rewrite <- Hv; apply length_slice; lia).
  split; [reflexivity|]. split; [congruence|]. split.
  - rewrite read_ok by lia. now rewrite L, Hv.
  - intro Hl. unfold rec_read. rewrite E, read_ok by lia. cbn [bind]. rewrite <- Hv. f_equal.
    unfold slice. destruct n as [|n]; [lia|]. destruct (skipn o pkt); reflexivity.
Qed.

Lemma value_none pkt h t :
  value pkt h t = None -> rec_present h t = false /\ rec_len h t = 0.
Proof. unfold value, rec_present, rec_len. destruct (h_records h t) as [[o n]|]; [discriminate|auto]. Qed.

Lemma flags_bit f : negb (N.eqb (N.land f 1) 0) = N.odd f.
Proof.
  rewrite <- N.bit0_odd. change 1%N with (N.ones 1). rewrite N.land_ones.
  change (2 ^ 1)%N with 2%N. rewrite <- N.bit0_mod. destruct (N.testbit f 0); reflexivity.
Qed.

Lemma flags_known f : negb (N.eqb (N.ldiff f 1) 0) = negb (existsb (bytes_eqb [f]) [[0]; [1]])%N.
Proof.
  assert (E : N.ldiff f 1 = (2 * (f / 2))%N).
  { change 1%N with (N.ones 1). rewrite N.ldiff_ones_r, N.shiftl_mul_pow2, N.shiftr_div_pow2.
    change (2 ^ 1)%N with 2%N. lia. }
  rewrite E. cbn [existsb]. f_equal.
  destruct (N.eqb_spec (2 * (f / 2)) 0) as [H|H];
    destruct (bytes_eqb_spec [f] [0%N]) as [A|A]; destruct (bytes_eqb_spec [f] [1%N]) as [B|B]; cbn [orb]; try reflexivity.
  - exfalso. assert (f = 0 \/ f = 1)%N as [->| ->] by lia; [apply A|apply B]; reflexivity.
  - exfalso. injection A as ->. apply H. reflexivity.
  - exfalso. injection A as ->. apply H. reflexivity.
  - exfalso. injection B as ->. apply H. reflexivity.
Qed.

Lemma handle_verdict c pkt ctl h :
  parse_tlvs pkt = Ok (Some h) ->
  exists r, handshake_handle c pkt ctl = Ok r /\ verdict_of r = spec_verdict c ctl (value pkt h) /\
    (forall recs, outcome_records r = Some recs -> recs = h_records h).
Proof.
  intro Hp. destruct (parse_inside pkt) as [oh [Hp' Hin]]. rewrite Hp in Hp'. injection Hp' as <-.
  specialize (Hin h eq_refl).
  unfold handshake_handle, spec_verdict. rewrite Hp. cbn [bind].
  destruct (value pkt h R_TYPE) as [[|ty [|? ?]]|] eqn:Vt.
  1,3,4: (assert (Hl : rec_len h R_TYPE <> 1);
    [first [ destruct (value_some pkt h R_TYPE _ Hin Vt) as [_ [-> _]]; cbn [length]; lia
           | destruct (value_none pkt h R_TYPE Vt) as [_ ->]; lia]|];
    apply Nat.eqb_neq in Hl; rewrite Hl; cbn [negb]; eexists; split; [reflexivity|]; split; [reflexivity|discriminate]).
  destruct (value_some pkt h R_TYPE _ Hin Vt) as [_ [Lt [_ Rt]]]. rewrite Lt. cbn [length Nat.eqb negb].
  rewrite Rt by (cbn [length]; lia). cbn [bind nth].
  assert (Ef : (if Nat.leb 1 (rec_len h R_FLAGS) then as_uint8 pkt h R_FLAGS else Ok 0%N) = Ok (flags_of (value pkt h))).
  { unfold flags_of. destruct (value pkt h R_FLAGS) as [v|] eqn:V.
    - destruct (value_some pkt h R_FLAGS _ Hin V) as [_ [L [_ R]]]. rewrite L.
      destruct v as [|f v]; [reflexivity|]. cbn [length Nat.leb]. rewrite R by (cbn [length]; lia). reflexivity.
    - destruct (value_none pkt h R_FLAGS V) as [_ L]. rewrite L. reflexivity. }
  rewrite Ef. cbn [bind]. cbv zeta.
  remember (flags_of (value pkt h)) as fl eqn:Efl.
  rewrite flags_bit. destruct (negb ctl && N.odd fl)%bool.
  { eexists; split; [reflexivity|]; split; [reflexivity|discriminate]. }
  match goal with |- context [check_records c pkt ?x] => remember x as h1 eqn:Eh end.
  assert (Hin1 : records_inside pkt h1) by (rewrite Eh; destruct Hin as [A B]; split; [exact A|exact B]).
  assert (Hv1 : forall t, value pkt h1 t = value pkt h t) by (intro t; rewrite Eh; reflexivity).
  assert (Hr1 : h_records h1 = h_records h) by (rewrite Eh; reflexivity).
  assert (Ht1 : h_type h1 = ty) by (rewrite Eh; reflexivity).
  assert (Hf1 : h_flags h1 = fl) by (rewrite Eh; reflexivity).
  clear Eh. unfold check_records.
  (* flags *)
  assert (E1 : (rec_present h1 R_FLAGS && (negb (Nat.eqb (rec_len h1 R_FLAGS) 1) || negb (N.eqb (N.ldiff (h_flags h1) 1) 0)))%bool
    = match value pkt h R_FLAGS with Some f => negb (existsb (bytes_eqb f) [[0]; [1]])%N | None => false end).
  { pose proof (Hv1 R_FLAGS) as V. destruct (value pkt h R_FLAGS) as [v|] eqn:V0.
    - destruct (value_some pkt h1 R_FLAGS _ Hin1 V) as [-> [L _]]. rewrite L, flags_known, Hf1, Efl.
      unfold flags_of. rewrite V0. cbn [andb].
      destruct v as [|f [|b l]]; cbn [length Nat.eqb negb orb]; try reflexivity. cbn [existsb].
      destruct (bytes_eqb_spec (f :: b :: l) [0%N]); [discriminate|].
      destruct (bytes_eqb_spec (f :: b :: l) [1%N]); [discriminate|]. reflexivity.
    - destruct (value_none pkt h1 R_FLAGS V) as [-> _]. reflexivity. }
  rewrite E1. destruct (match value pkt h R_FLAGS with Some f => _ | None => false end).
  { cbn [bind]. eexists; split; [reflexivity|]; split; [reflexivity|]. intros recs Hrec. cbn in Hrec. congruence. }
  (* protocol *)
  assert (E2 : (if rec_present h1 R_PROTOCOL_NAME then
                    do d <- rec_read pkt h1 R_PROTOCOL_NAME (rec_len h1 R_PROTOCOL_NAME);
                    Ok (string_equal (hc_protocol c) d)
                  else Ok true) =
    Ok (negb match value pkt h R_PROTOCOL_NAME with Some p => negb (bytes_eqb (c_str p) (hc_protocol c)) | None => false end)).
  { pose proof (Hv1 R_PROTOCOL_NAME) as V. destruct (value pkt h R_PROTOCOL_NAME) as [v|].
    - destruct (value_some pkt h1 R_PROTOCOL_NAME _ Hin1 V) as [-> [L [R _]]]. rewrite L, R. cbn [bind].
      now rewrite string_equal_spec, negb_involutive.
    - destruct (value_none pkt h1 R_PROTOCOL_NAME V) as [-> _]. reflexivity. }
  rewrite E2. cbn [bind]. rewrite negb_involutive.
  destruct (match value pkt h R_PROTOCOL_NAME with Some p => _ | None => false end).
  { cbn [bind]. eexists; split; [reflexivity|]; split; [reflexivity|]. intros recs Hrec. cbn in Hrec. congruence. }
  (* mode *)
  assert (E3 : (if rec_present h1 R_MODE then
                   if negb (Nat.eqb (rec_len h1 R_MODE) 1) then Ok false
                   else do m <- as_uint8 pkt h1 R_MODE; Ok (N.eqb m (hc_mode_id c))
                 else Ok true) =
    Ok (negb match value pkt h R_MODE with Some m => negb (bytes_eqb m [hc_mode_id c]) | None => false end)).
  { pose proof (Hv1 R_MODE) as V. destruct (value pkt h R_MODE) as [v|].
    - destruct (value_some pkt h1 R_MODE _ Hin1 V) as [-> [L [_ R]]]. rewrite L, negb_involutive.
      destruct v as [|m [|n l]]; cbn [length Nat.eqb negb].
      + destruct (bytes_eqb_spec [] [hc_mode_id c]); [discriminate|reflexivity].
      + rewrite R by (cbn [length]; lia). cbn [bind nth]. f_equal.
        destruct (N.eqb_spec m (hc_mode_id c)) as [Em|Hne]; destruct (bytes_eqb_spec [m] [hc_mode_id c]) as [E|E];
          try reflexivity; exfalso; [apply E; now rewrite Em|injection E as E; exact (Hne E)].
      + destruct (bytes_eqb_spec (m :: n :: l) [hc_mode_id c]); [discriminate|reflexivity].
    - destruct (value_none pkt h1 R_MODE V) as [-> _]. reflexivity. }
  rewrite E3. cbn [bind]. rewrite negb_involutive.
  destruct (match value pkt h R_MODE with Some m => _ | None => false end).
  { cbn [bind]. eexists; split; [reflexivity|]; split; [reflexivity|]. intros recs Hrec. cbn in Hrec. congruence. }
  assert (Fin : exists r,
    (do _ <- (if (N.ltb 1 (h_type h1) && rec_present h1 R_VERSION_NAME)%bool
              then rec_read pkt h1 R_VERSION_NAME (rec_len h1 R_VERSION_NAME) else Ok []);
     Ok (HProtocol h1)) = Ok r /\ verdict_of r = VProtocol ty fl /\
     (forall recs, outcome_records r = Some recs -> recs = h_records h)).
  { assert (A : exists v, (if (N.ltb 1 (h_type h1) && rec_present h1 R_VERSION_NAME)%bool
                   then rec_read pkt h1 R_VERSION_NAME (rec_len h1 R_VERSION_NAME) else Ok []) = Ok v).
    { destruct (rec_present h1 R_VERSION_NAME) eqn:Ev; [|rewrite andb_false_r; eauto].
      destruct (rec_read_ok pkt h1 R_VERSION_NAME (rec_len h1 R_VERSION_NAME) Hin1 Ev (le_n _)) as [d [Ed _]].
      destruct (N.ltb 1 (h_type h1)); cbn [andb]; [rewrite Ed|]; eauto. }
    destruct A as [v ->]. cbn [bind]. exists (HProtocol h1). split; [reflexivity|]. split.
    - cbn [verdict_of]. now rewrite Ht1, Hf1.
    - intros recs Hrec. cbn in Hrec. congruence. }
  rewrite Ht1 in Fin |- *.
  assert (Hle : (ty <=? 1)%N = negb (1 <? ty)%N) by lia. rewrite Hle.
  destruct (1 <? ty)%N eqn:E4; cbn [negb]; [|cbn [bind]; rewrite Ht1, E4; exact Fin].
  pose proof (Hv1 R_REPLY_CODE) as V. destruct (value pkt h R_REPLY_CODE) as [rc|].
  - destruct (value_some pkt h1 R_REPLY_CODE _ Hin1 V) as [_ [L [_ R]]]. rewrite L.
    destruct rc as [|rc [|n l]]; cbn [length Nat.eqb negb].
    + cbn [bind]. destruct (bytes_eqb_spec [] [0%N]); [discriminate|].
      eexists; split; [reflexivity|]; split; [reflexivity|discriminate].
    + rewrite R by (cbn [length]; lia). cbn [bind nth]. unfold REPLY_SUCCESS.
      destruct (N.eqb_spec rc 0) as [->|Hne]; cbn [negb bind].
      * destruct (bytes_eqb_spec [0%N] [0%N]); [|congruence]. rewrite Ht1, E4. exact Fin.
      * destruct (bytes_eqb_spec [rc] [0%N]); [congruence|].
        assert (A : exists v, (if (Nat.eqb (rec_len h1 R_ERROR_DETAIL) 1 || Nat.eqb (rec_len h1 R_ERROR_DETAIL) 2)%bool
                 then as_uint pkt h1 R_ERROR_DETAIL else Ok 0%N) = Ok v).
        { destruct (Nat.eqb (rec_len h1 R_ERROR_DETAIL) 1 || Nat.eqb (rec_len h1 R_ERROR_DETAIL) 2)%bool; [|eauto].
          now apply as_uint_ok. }
        destruct A as [v ->]. cbn [bind]. eexists; split; [reflexivity|]; split; [reflexivity|discriminate].
    + cbn [bind]. destruct (bytes_eqb_spec (rc :: n :: l) [0%N]); [discriminate|].
      eexists; split; [reflexivity|]; split; [reflexivity|discriminate].
  - destruct (value_none pkt h1 R_REPLY_CODE V) as [_ L]. rewrite L. cbn [Nat.eqb negb bind].
    eexists; split; [reflexivity|]; split; [reflexivity|discriminate].
Qed.

(** ** Messages *)
Lemma compose_app cap p a b :
  compose cap p (a ++ b) = do q <- compose cap p a; compose cap q b.
Proof.
  revert p; induction a as [|[t v] a IH]; intro p; [reflexivity|]. cbn [app compose].
  destruct (hs_add cap p t v); cbn [bind]; [apply IH| | |]; reflexivity.
Qed.

Ltac step_adds :=
  repeat match goal with
  | |- context [hs_add ?a ?b ?c ?d] => destruct (hs_add a b c d); cbn [bind]; try reflexivity
  end.

Lemma new_handshake_compose c type mtu method methods tail :
  hs_space c mtu method methods tail <= HS_MAX ->
  hc_max_buffer c mod 16 = 0 -> HS_MAX <= hc_max_buffer c ->
  new_handshake c type mtu method methods tail =
    do p <- compose (hc_max_buffer c - CONTROL_HEADER_LEN) hs_empty (common_records c type mtu method methods);
    Ok (hc_max_buffer c - CONTROL_HEADER_LEN, p).
Proof.
  intros Hs Hm Hmb. unfold new_handshake. cbv zeta.
  destruct (Nat.ltb_spec HS_MAX (hs_space c mtu method methods tail)); [lia|].
  pose proof (alignto_fits (hs_space c mtu method methods tail) (hc_max_buffer c) Hm ltac:(lia)) as Ha.
  destruct (Nat.ltb_spec (hc_max_buffer c) (alignto (hs_space c mtu method methods tail) 16)); [lia|].
  remember (hc_max_buffer c - CONTROL_HEADER_LEN) as cap eqn:Ec.
  unfold common_records, hs_add_uint8, hs_add_uint16.
  destruct (N.eqb mtu 0); destruct method as [m|]; destruct methods as [|m0 ms]; cbn [app compose];
    change (le_bytes 1 FLAG_L2TP_SUPPORT) with [1%N]; step_adds.
Qed.

Lemma length_area_common c type mtu method methods tail :
  length (area (common_records c type mtu method methods)) + 16 + RECORD_LEN 1 + tail
    <= hs_space c mtu method methods tail.
Proof.
  unfold hs_space, CONTROL_HEADER_LEN, common_records, area.
  rewrite !flat_map_app, !app_length. cbn [flat_map].
  rewrite !app_nil_r, !app_length, !length_enc1. cbn [snd].
  rewrite !le_bytes_length. change (length [1%N]) with 1.
  assert (A : length (flat_map enc1 (if N.eqb mtu 0 then [] else [(R_MTU, le_bytes 2 mtu)]))
              = if N.eqb mtu 0 then 0 else RECORD_LEN 2).
  { destruct (N.eqb mtu 0); [reflexivity|]. cbn [flat_map]. rewrite app_nil_r, length_enc1. reflexivity. }
  rewrite A.
  assert (B : length (flat_map enc1 (match method, methods with Some m, [] => [(R_METHOD_NAME, m)] | _, _ => [] end))
              <= RECORD_LEN (match method with Some m => length m | None => 0 end)).
  { destruct method as [m|]; destruct methods as [|m0 ms]; cbn [flat_map length]; try lia.
    rewrite app_nil_r, length_enc1. cbn [snd]. lia. }
  assert (C : length (flat_map enc1 (match methods with [] => [] | _ => [(R_METHOD_LIST, create_method_list methods)] end))
              <= RECORD_LEN (length (create_method_list methods))).
  { destruct methods as [|m0 ms]; cbn [flat_map length]; [lia|].
    rewrite app_nil_r, length_enc1. cbn [snd]. lia. }
  lia.
Qed.

Lemma length_area_cons t v l : length (area ((t, v) :: l)) = RECORD_LEN (length v) + length (area l).
Proof. cbn [area flat_map]. rewrite app_length, length_enc1. reflexivity. Qed.

Definition key_ok (k : bytes) : Prop := length k = KEY_LEN.

Lemma build_init_packet c sender recipient eph :
  hs_space c 0 None [] (3 * RECORD_LEN KEY_LEN) <= HS_MAX ->
  hc_max_buffer c mod 16 = 0 -> HS_MAX <= hc_max_buffer c ->
  key_ok sender -> (forall k, recipient = Some k -> key_ok k) -> key_ok eph ->
  build_init c sender recipient eph = Ok (packet (init_records c sender recipient eph)) /\
  CONTROL_HEADER_LEN + length (packet (init_records c sender recipient eph))
    <= hs_space c 0 None [] (3 * RECORD_LEN KEY_LEN).
Proof.
  intros Hs Hm Hmb K1 K2 K3.
  assert (L : CONTROL_HEADER_LEN + length (packet (init_records c sender recipient eph))
    <= hs_space c 0 None [] (3 * RECORD_LEN KEY_LEN)).
  { rewrite length_packet. unfold init_records. rewrite !area_app, !app_length.
    pose proof (length_area_common c 1 0 None [] (3 * RECORD_LEN KEY_LEN)) as Hc.
    unfold key_ok in *. rewrite !length_area_cons, K1, K3.
    assert (R : length (area (match recipient with Some k => [(R_RECIPIENT_KEY, k)] | None => [] end)) <= RECORD_LEN KEY_LEN).
    { destruct recipient as [k|]; [rewrite length_area_cons, (K2 k eq_refl)|]; cbn [area flat_map length]; lia. }
    cbn [area flat_map length]. unfold CONTROL_HEADER_LEN, RECORD_LEN in *. lia. }
  split; [|exact L].
  unfold build_init, new_init. rewrite new_handshake_compose by assumption.
  remember (hc_max_buffer c - CONTROL_HEADER_LEN) as cap eqn:Ec.
  transitivity (compose cap hs_empty (init_records c sender recipient eph)).
  - unfold init_records. rewrite compose_app.
    destruct (compose cap hs_empty (common_records c 1 0 None [])); cbn [bind]; try reflexivity.
    destruct recipient as [k|]; cbn [app compose bind]; step_adds.
  - change hs_empty with (packet []). rewrite length_packet in L. unfold HS_MAX in *.
    apply (compose_packet cap (init_records c sender recipient eph) []); cbn [app]; unfold CONTROL_HEADER_LEN in *; lia.
Qed.

Lemma firstn_app_exact {A} (a b : list A) n : n = length a -> firstn n (a ++ b) = a.
Proof. intros ->. rewrite firstn_app, Nat.sub_diag, firstn_O, app_nil_r. apply firstn_all. Qed.

Lemma firstn_butlast {A} (a b : list A) : firstn (length (a ++ b) - length b) (a ++ b) = a.
Proof. apply firstn_app_exact. rewrite app_length. lia. Qed.

Definition reply_prefix (c : hs_conf) type mtu method methods sender recipient eph reph :=
  common_records c type mtu method methods
  ++ [(R_REPLY_CODE, [0]%N); (R_SENDER_KEY, sender); (R_RECIPIENT_KEY, recipient);
      (R_SENDER_HANDSHAKE_KEY, eph); (R_RECIPIENT_HANDSHAKE_KEY, reph)].

Lemma reply_records_prefix c type mtu method methods sender recipient eph reph tag :
  reply_records c type mtu method methods sender recipient eph reph tag
  = reply_prefix c type mtu method methods sender recipient eph reph ++ [(R_TLV_MAC, tag)].
Proof. unfold reply_records, reply_prefix. rewrite <- app_assoc. reflexivity. Qed.

Lemma packet_snoc l t v v' :
  length v = length v' ->
  packet (l ++ [(t, v')]) = firstn (length (packet (l ++ [(t, v)])) - length v) (packet (l ++ [(t, v)])) ++ v'.
Proof.
  intro Hl.
  assert (E : forall x, length x = length v -> packet (l ++ [(t, x)]) =
    ([1; 0]%N ++ be_bytes 2 (N.of_nat (length (area l) + RECORD_LEN (length v))) ++ area l
     ++ le_bytes 2 (N.of_nat t) ++ le_bytes 2 (N.of_nat (length v))) ++ x).
  { intros x Hx. unfold packet. rewrite area_app. cbn [area flat_map]. rewrite app_nil_r, app_length, length_enc1.
    cbn [snd]. rewrite Hx. unfold enc1. cbn [fst snd]. rewrite Hx. now rewrite <- !app_assoc. }
  rewrite (E v' (eq_sym Hl)), (E v eq_refl). f_equal. symmetry. apply firstn_butlast.
Qed.

Lemma build_reply_packet c type mtu method methods sender recipient eph reph (mac : bytes -> bytes) :
  hs_space c mtu method methods (5 * RECORD_LEN KEY_LEN) <= HS_MAX ->
  hc_max_buffer c mod 16 = 0 -> HS_MAX <= hc_max_buffer c ->
  key_ok sender -> key_ok recipient -> key_ok eph -> key_ok reph -> (forall x, length (mac x) = KEY_LEN) ->
  let tag := mac (area (reply_records c type mtu method methods sender recipient eph reph (repeat 0%N KEY_LEN))) in
  build_reply c type mtu method methods sender recipient eph reph mac =
    Ok (packet (reply_records c type mtu method methods sender recipient eph reph tag)) /\
  CONTROL_HEADER_LEN + length (packet (reply_records c type mtu method methods sender recipient eph reph tag))
    <= hs_space c mtu method methods (5 * RECORD_LEN KEY_LEN).
Proof.
  intros Hs Hm Hmb K1 K2 K3 K4 Hmac tag.
  assert (L : forall x, length x = KEY_LEN ->
    CONTROL_HEADER_LEN + length (packet (reply_records c type mtu method methods sender recipient eph reph x))
    <= hs_space c mtu method methods (5 * RECORD_LEN KEY_LEN)).
  { intros x Hx. rewrite length_packet. unfold reply_records. rewrite !area_app, !app_length.
    pose proof (length_area_common c type mtu method methods (5 * RECORD_LEN KEY_LEN)) as Hc.
    unfold key_ok in *. rewrite !length_area_cons, K1, K2, K3, K4, Hx.
    cbn [area flat_map length]. unfold CONTROL_HEADER_LEN, RECORD_LEN in *. lia. }
  split; [|apply L, Hmac].
  unfold build_reply, new_reply.
  replace (4 * RECORD_LEN KEY_LEN + RECORD_LEN KEY_LEN) with (5 * RECORD_LEN KEY_LEN) by lia.
  rewrite new_handshake_compose by assumption.
  remember (hc_max_buffer c - CONTROL_HEADER_LEN) as cap eqn:Ec.
  pose (zero := (repeat 0%N KEY_LEN : bytes)).
  assert (Lz : length zero = KEY_LEN) by (apply repeat_length).
  transitivity (do p <- compose cap hs_empty (reply_records c type mtu method methods sender recipient eph reph zero);
                Ok (firstn (length p - KEY_LEN) p ++ mac (slice p 4 (N.to_nat (tlv_len_of p))))).
  - unfold reply_records. rewrite compose_app.
    destruct (compose cap hs_empty (common_records c type mtu method methods)); cbn [bind]; try reflexivity.
    unfold hs_add_uint8. change (le_bytes 1 0) with [0%N]. cbn [compose]. fold zero. step_adds.
  - pose proof (L zero Lz) as L0. rewrite length_packet in L0. unfold HS_MAX in *.
    change hs_empty with (packet []).
    rewrite compose_packet by (cbn [app]; unfold CONTROL_HEADER_LEN in *; lia). cbn [app bind].
    rewrite <- (app_nil_r (packet _)) at 4. rewrite tlv_len_packet by lia. rewrite Nat2N.id.
    assert (Es : forall l, slice (packet l) 4 (length (area l)) = area l).
    { intro l. unfold slice, packet. rewrite be2. cbn [app skipn]. apply firstn_all. }
    rewrite Es. f_equal. rewrite !reply_records_prefix. fold tag.
    rewrite (packet_snoc _ R_TLV_MAC zero tag) by (rewrite Lz; symmetry; apply Hmac).
    rewrite Lz. f_equal. unfold tag. now rewrite reply_records_prefix.
Qed.
