(** Proofs for the property theorems C19, C21-C24. *)
From Verif Require Import Base BaseLemmas BufferModel BufferProofs MethodModel HandshakeModel HandshakeSpec
  HandshakeProofs HandshakeProofs2 SizeModel SizeProofs.

Lemma encodable_small l :
  Forall (fun r => fst r < RECORD_MAX) l -> (N.of_nat (length (area l)) < 65536)%N -> encodable l.
Proof.
  intros HF Hn. split; [|exact Hn]. revert HF Hn. induction l as [|[t v] l IH]; intros HF Hn; [constructor|].
  apply Forall_cons_iff in HF. destruct HF as [Ht HF]. rewrite length_area_cons in Hn.
  unfold RECORD_MAX, RECORD_LEN in *. cbn [fst snd] in *.
  constructor; [cbn [fst snd]; lia|]. apply IH; [exact HF|lia].
Qed.

Lemma common_types c type mtu method methods :
  Forall (fun r : nat * bytes => fst r < RECORD_MAX) (common_records c type mtu method methods).
Proof.
  unfold common_records, RECORD_MAX.
  destruct (N.eqb mtu 0); destruct method as [m|]; destruct methods as [|m0 ms]; cbn [app];
    repeat (constructor; [vm_compute; lia|]); constructor.
Qed.

Lemma init_types c sender recipient eph :
  Forall (fun r : nat * bytes => fst r < RECORD_MAX) (init_records c sender recipient eph).
Proof.
  unfold init_records. apply Forall_app. split; [apply common_types|]. unfold RECORD_MAX.
  destruct recipient; cbn [app]; repeat (constructor; [vm_compute; lia|]); constructor.
Qed.

Lemma reply_types c type mtu method methods sender recipient eph reph tag :
  Forall (fun r : nat * bytes => fst r < RECORD_MAX)
    (reply_records c type mtu method methods sender recipient eph reph tag).
Proof.
  unfold reply_records. apply Forall_app. split; [apply common_types|]. unfold RECORD_MAX.
  repeat (constructor; [vm_compute; lia|]); constructor.
Qed.

Lemma find_last_app t a b :
  find_last t (a ++ b) = match find_last t b with Some v => Some v | None => find_last t a end.
Proof.
  induction a as [|[t' v] a IH]; cbn [app find_last]; [destruct (find_last t b); reflexivity|].
  rewrite IH. destruct (find_last t b); reflexivity.
Qed.

Lemma find_pos_app t off a b :
  find_pos t off (a ++ b) = match find_pos t (off + length (area a)) b with Some v => Some v | None => find_pos t off a end.
Proof.
  revert off; induction a as [|[t' v] a IH]; intro off; cbn [app find_pos].
  - cbn [area flat_map length]. rewrite Nat.add_0_r. destruct (find_pos t off b); reflexivity.
  - rewrite IH, length_area_cons, Nat.add_assoc. destruct (find_pos t (off + RECORD_LEN (length v) + length (area a)) b); reflexivity.
Qed.

(** ** MAC *)
Lemma mac_input_packet l (tag : bytes) h :
  Forall (fun r => fst r < RECORD_MAX) l -> length tag = KEY_LEN ->
  (N.of_nat (length (area (l ++ [(R_TLV_MAC, tag)]))) < 65536)%N ->
  parse_tlvs (packet (l ++ [(R_TLV_MAC, tag)])) = Ok (Some h) ->
  mac_input (packet (l ++ [(R_TLV_MAC, tag)])) h = Some (area (l ++ [(R_TLV_MAC, zero_mac)])) /\
  value (packet (l ++ [(R_TLV_MAC, tag)])) h R_TLV_MAC = Some tag.
Proof.
  intros HF Ht Hn Hp.
  assert (He : encodable (l ++ [(R_TLV_MAC, tag)])).
  { apply encodable_small; [|exact Hn]. apply Forall_app. split; [exact HF|].
    constructor; [vm_compute; lia|constructor]. }
  destruct (parse_packet _ [] He) as [h' [H1 [H2 [H3 H4]]]]. rewrite app_nil_r in H1, H3.
  rewrite Hp in H1. injection H1 as <-.
  assert (Hp15 : h_records h R_TLV_MAC = Some (4 + length (area l) + 4, length tag)).
  { rewrite H4 by (vm_compute; lia). rewrite find_pos_app. reflexivity. }
  split; [|rewrite H3 by (vm_compute; lia); rewrite find_last_app; reflexivity].
  unfold mac_input. rewrite Hp15. f_equal. rewrite H2.
  assert (E : forall x : bytes, area (l ++ [(R_TLV_MAC, x)]) =
    (area l ++ le_bytes 2 (N.of_nat R_TLV_MAC) ++ le_bytes 2 (N.of_nat (length x))) ++ x).
  { intro x. rewrite area_app. cbn [area flat_map]. rewrite app_nil_r. unfold enc1. cbn [fst snd]. now rewrite <- !app_assoc. }
  assert (Lz : length zero_mac = KEY_LEN) by (apply repeat_length).
  remember zero_mac as zero eqn:Ez.
  rewrite (E tag), (E zero). rewrite Ht, Lz.
  remember (area l ++ le_bytes 2 (N.of_nat R_TLV_MAC) ++ le_bytes 2 (N.of_nat KEY_LEN)) as pre eqn:Epre.
  assert (Lpre : length pre = length (area l) + 4).
  { rewrite Epre, !app_length, !le_bytes_length. lia. }
  assert (Hpk : exists b0 b1 b2 b3, packet (l ++ [(R_TLV_MAC, tag)]) = [b0; b1; b2; b3] ++ pre ++ tag).
  { unfold packet. rewrite (E tag), Ht, <- Epre, be2. cbn [app]. do 4 eexists. reflexivity. }
  destruct Hpk as [b0 [b1 [b2 [b3 ->]]]].
  unfold overwrite. rewrite Lz.
  assert (F : forall (hd : bytes), length hd = 4 ->
    slice (firstn (4 + length (area l) + 4) (hd ++ pre ++ tag) ++ zero ++ skipn (4 + length (area l) + 4 + KEY_LEN) (hd ++ pre ++ tag)) 4 (length (pre ++ tag)) = pre ++ zero).
  { intros hd Hhd. rewrite (app_assoc hd pre tag).
    rewrite firstn_app_exact by (rewrite app_length; lia).
    rewrite skipn_all2 by (rewrite !app_length; lia). rewrite app_nil_r, <- app_assoc.
    rewrite slice_app_r by lia. rewrite Hhd, Nat.sub_diag.
    replace (length (pre ++ tag)) with (length (pre ++ zero)) by (rewrite !app_length; lia).
    apply slice_all. }
  apply F. reflexivity.
Qed.

Lemma mac_round_trip c type mtu method methods sender recipient eph reph (mac : bytes -> bytes) p :
  hc_max_buffer c mod 16 = 0 -> HS_MAX <= hc_max_buffer c ->
  key_ok sender -> key_ok recipient -> key_ok eph -> key_ok reph -> (forall x, length (mac x) = KEY_LEN) ->
  build_reply c type mtu method methods sender recipient eph reph mac = Ok p ->
  exists h x, parse_tlvs p = Ok (Some h) /\ mac_input p h = Some x /\ value p h R_TLV_MAC = Some (mac x) /\
    forall t, t < RECORD_MAX ->
      value p h t = find_last t (reply_records c type mtu method methods sender recipient eph reph (mac x)).
Proof.
  intros Hm Hmb K1 K2 K3 K4 Hmac Hb.
  assert (Hs : hs_space c mtu method methods (5 * RECORD_LEN KEY_LEN) <= HS_MAX).
  { unfold build_reply, new_reply, new_handshake in Hb.
    replace (4 * RECORD_LEN KEY_LEN + RECORD_LEN KEY_LEN) with (5 * RECORD_LEN KEY_LEN) in Hb by lia.
    destruct (Nat.ltb_spec HS_MAX (hs_space c mtu method methods (5 * RECORD_LEN KEY_LEN))) as [H|H]; [discriminate|exact H]. }
  pose proof (build_reply_packet c type mtu method methods sender recipient eph reph mac Hs Hm Hmb K1 K2 K3 K4 Hmac) as X.
  cbv zeta in X.
  change (repeat 0%N KEY_LEN) with zero_mac in X.
  remember (area (reply_records c type mtu method methods sender recipient eph reph zero_mac)) as x eqn:Ex.
  destruct X as [E L]. rewrite E in Hb. injection Hb as Hb.
  rewrite length_packet in L. unfold HS_MAX in Hs.
  assert (Hn : (N.of_nat (length (area (reply_records c type mtu method methods sender recipient eph reph (mac x)))) < 65536)%N) by lia.
  destruct (parse_packet _ [] (encodable_small _ (reply_types c type mtu method methods sender recipient eph reph (mac x)) Hn))
    as [h [H1 [_ [H3 _]]]].
  rewrite app_nil_r in H1, H3. exists h, x. rewrite <- Hb.
  split; [exact H1|].
  rewrite reply_records_prefix in H1, Hn.
  assert (HFp : Forall (fun r : nat * bytes => fst r < RECORD_MAX)
                  (reply_prefix c type mtu method methods sender recipient eph reph)).
  { unfold reply_prefix. apply Forall_app. split; [apply common_types|]. unfold RECORD_MAX.
    repeat (constructor; [vm_compute; lia|]); constructor. }
  destruct (mac_input_packet _ (mac x) h HFp (Hmac x) Hn H1) as [M1 M2].
  rewrite <- !reply_records_prefix in M1. rewrite <- !reply_records_prefix in M2.
  split; [rewrite M1, Ex; reflexivity|]. split; [exact M2|exact H3].
Qed.

(** ** C21 *)
Lemma build_init_cases c sender recipient eph :
  hc_max_buffer c mod 16 = 0 -> HS_MAX <= hc_max_buffer c ->
  key_ok sender -> (forall k, recipient = Some k -> key_ok k) -> key_ok eph ->
  let space := hs_space c 0 None [] (3 * RECORD_LEN KEY_LEN) in
  (space <= HS_MAX /\ exists p, build_init c sender recipient eph = Ok p /\ CONTROL_HEADER_LEN + length p <= space) \/
  (HS_MAX < space /\ build_init c sender recipient eph = Bug).
Proof.
  intros Hm Hmb K1 K2 K3 space.
  destruct (Nat.le_gt_cases space HS_MAX) as [H|H].
  - left. split; [exact H|]. eexists. apply build_init_packet; assumption.
  - right. split; [exact H|]. unfold build_init, new_init, new_handshake. fold space.
    destruct (Nat.ltb_spec HS_MAX space); [reflexivity|lia].
Qed.

Lemma build_reply_cases c type mtu method methods sender recipient eph reph (mac : bytes -> bytes) :
  hc_max_buffer c mod 16 = 0 -> HS_MAX <= hc_max_buffer c ->
  key_ok sender -> key_ok recipient -> key_ok eph -> key_ok reph -> (forall x, length (mac x) = KEY_LEN) ->
  let space := hs_space c mtu method methods (5 * RECORD_LEN KEY_LEN) in
  (space <= HS_MAX /\ exists p, build_reply c type mtu method methods sender recipient eph reph mac = Ok p /\
                      CONTROL_HEADER_LEN + length p <= space) \/
  (HS_MAX < space /\ build_reply c type mtu method methods sender recipient eph reph mac = Bug).
Proof.
  intros Hm Hmb K1 K2 K3 K4 Hmac space.
  destruct (Nat.le_gt_cases space HS_MAX) as [H|H].
  - left. split; [exact H|]. eexists.
    exact (build_reply_packet c type mtu method methods sender recipient eph reph mac H Hm Hmb K1 K2 K3 K4 Hmac).
  - right. split; [exact H|]. unfold build_reply, new_reply, new_handshake.
    replace (4 * RECORD_LEN KEY_LEN + RECORD_LEN KEY_LEN) with (5 * RECORD_LEN KEY_LEN) by lia. fold space.
    destruct (Nat.ltb_spec HS_MAX space); [reflexivity|lia].
Qed.

(** ** C22 *)
Definition error_records (type code : N) (d : bytes) : list (nat * bytes) :=
  [(R_TYPE, le_bytes 1 ((type + 1) mod 256)); (R_FLAGS, [1]%N); (R_REPLY_CODE, le_bytes 1 code); (R_ERROR_DETAIL, d)].

Lemma build_error_packet mb type code detail :
  48 <= mb ->
  exists d, length d <= 4 /\ build_error mb type code detail = Ok (packet (error_records type code d)) /\
    CONTROL_HEADER_LEN + length (packet (error_records type code d)) <= 39.
Proof.
  intro Hmb. unfold build_error. change (alignto (CONTROL_HEADER_LEN + 4 + 4 * RECORD_LEN 1) 16) with 48.
  cbv zeta. destruct (Nat.ltb_spec mb 48); [lia|].
  remember (mb - CONTROL_HEADER_LEN) as cap eqn:Ec. unfold CONTROL_HEADER_LEN in *.
  assert (A : exists n, n <= 4 /\ forall p, hs_add_uint cap p R_ERROR_DETAIL detail = hs_add cap p R_ERROR_DETAIL (le_bytes n detail)).
  { unfold hs_add_uint. destruct (16777215 <? detail)%N; [exists 4; split; [lia|reflexivity]|].
    destruct (65535 <? detail)%N; [exists 3; split; [lia|reflexivity]|].
    destruct (255 <? detail)%N; [exists 2; split; [lia|reflexivity]|exists 1; split; [lia|reflexivity]]. }
  destruct A as [n [Hn A]]. exists (le_bytes n detail). rewrite le_bytes_length. split; [exact Hn|].
  assert (L : length (area (error_records type code (le_bytes n detail))) = 19 + n).
  { unfold error_records. rewrite !length_area_cons, !le_bytes_length. cbn [area flat_map length]. unfold RECORD_LEN. lia. }
  split; [|rewrite length_packet, L; lia].
  transitivity (compose cap hs_empty (error_records type code (le_bytes n detail))).
  - unfold error_records, hs_add_uint8. change (le_bytes 1 FLAG_L2TP_SUPPORT) with [1%N]. cbn [compose].
    do 3 (match goal with
          | |- context [hs_add ?a ?b ?c ?d] => destruct (hs_add a b c d); cbn [bind]; try reflexivity
          end).
    rewrite A. step_adds.
  - change hs_empty with (packet []). apply (compose_packet cap _ []); cbn [app]; lia.
Qed.

Lemma error_ignored mb type code detail p c ctl :
  build_error mb type code detail = Ok p ->
  exists r, handshake_handle c p ctl = Ok r /\
    (r = HIgnore \/ exists h, r = HProtocol h /\ has_field h R_SENDER_KEY KEY_LEN = false).
Proof.
  intro Hb.
  assert (Hmb : 48 <= mb).
  { unfold build_error in Hb. change (alignto (CONTROL_HEADER_LEN + 4 + 4 * RECORD_LEN 1) 16) with 48 in Hb.
    cbv zeta in Hb. destruct (Nat.ltb_spec mb 48); [discriminate|assumption]. }
  destruct (build_error_packet mb type code detail Hmb) as [d [Hd [E L]]]. rewrite E in Hb. injection Hb as <-.
  rewrite length_packet in L.
  assert (He : encodable (error_records type code d)).
  { apply encodable_small; [|lia]. unfold error_records, RECORD_MAX. repeat (constructor; [vm_compute; lia|]). constructor. }
  destruct (parse_packet _ [] He) as [h [H1 [_ [H2 _]]]]. rewrite app_nil_r in H1, H2.
  destruct (handle_verdict c _ ctl h H1) as [r [R1 [R2 R3]]]. exists r. split; [exact R1|].
  unfold spec_verdict, flags_of in R2. cbv zeta in R2.
  rewrite !H2 in R2 by (vm_compute; lia).
  change (find_last R_TYPE (error_records type code d)) with (Some (le_bytes 1 ((type + 1) mod 256))) in R2.
  change (find_last R_FLAGS (error_records type code d)) with (Some [1%N]) in R2.
  change (find_last R_PROTOCOL_NAME (error_records type code d)) with (@None bytes) in R2.
  change (find_last R_MODE (error_records type code d)) with (@None bytes) in R2.
  change (find_last R_REPLY_CODE (error_records type code d)) with (Some (le_bytes 1 code)) in R2.
  cbn [le_bytes] in R2.
  assert (N2 : forall c' d', verdict_of r <> VError c' d').
  { intros c' d'. rewrite R2. destruct (negb ctl && N.odd 1)%bool; [discriminate|].
    change (negb (existsb (bytes_eqb [1%N]) [[0%N]; [1%N]])) with false. cbv iota.
    destruct (((type + 1) mod 256) mod 256 <=? 1)%N; [discriminate|].
    match goal with |- context [bytes_eqb ?a ?b] => destruct (bytes_eqb a b) end; discriminate. }
  destruct r as [|c' d' h'|h']; [now left|exfalso; apply (N2 c' d'); reflexivity|].
  right. exists h'. split; [reflexivity|]. specialize (R3 (h_records h') eq_refl).
  unfold has_field, rec_len. rewrite R3.
  assert (V : value (packet (error_records type code d)) h R_SENDER_KEY = None) by (rewrite H2 by (vm_compute; lia); reflexivity).
  unfold value in V. destruct (h_records h R_SENDER_KEY) as [[o n]|]; [discriminate|reflexivity].
Qed.

(** ** C23 *)
Lemma handle_plain_flag_ignored c pkt h :
  parse_tlvs pkt = Ok (Some h) -> N.odd (flags_of (value pkt h)) = true ->
  handshake_handle c pkt false = Ok HIgnore.
Proof.
  intros Hp Hf. destruct (handle_verdict c pkt false h Hp) as [r [-> [R2 _]]].
  assert (V : verdict_of r = VIgnore).
  { rewrite R2. unfold spec_verdict. rewrite Hf. destruct (value pkt h R_TYPE) as [[|? [|? ?]]|]; reflexivity. }
  destruct r; [reflexivity|discriminate|discriminate].
Qed.

Lemma handle_no_flag_same c pkt h :
  parse_tlvs pkt = Ok (Some h) -> N.odd (flags_of (value pkt h)) = false ->
  handshake_handle c pkt false = handshake_handle c pkt true.
Proof.
  intros Hp Hf. unfold handshake_handle. rewrite Hp. cbn [bind].
  destruct (Nat.eqb_spec (rec_len h R_TYPE) 1) as [El|]; cbn [negb]; [|reflexivity].
  destruct (parse_inside pkt) as [oh [Hp' Hin]]. rewrite Hp in Hp'. injection Hp' as <-. specialize (Hin h eq_refl).
  destruct (as_uint8_ok pkt h R_TYPE Hin ltac:(lia)) as [ty ->]. cbn [bind].
  assert (Ef : (if Nat.leb 1 (rec_len h R_FLAGS) then as_uint8 pkt h R_FLAGS else Ok 0%N) = Ok (flags_of (value pkt h))).
  { unfold flags_of. destruct (value pkt h R_FLAGS) as [v|] eqn:V.
    - destruct (value_some pkt h R_FLAGS _ Hin V) as [_ [L [_ R]]]. rewrite L.
      destruct v as [|f v]; [reflexivity|]. cbn [length Nat.leb]. rewrite R by (cbn [length]; lia). reflexivity.
    - destruct (value_none pkt h R_FLAGS V) as [_ L]. rewrite L. reflexivity. }
  rewrite Ef. cbn [bind]. cbv zeta. rewrite flags_bit, Hf. reflexivity.
Qed.

Lemma classify_packet l : classify (packet l) = PHandshake (packet l) false.
Proof. unfold packet. rewrite be2. reflexivity. Qed.

Lemma classify_control l : classify (control_header ++ packet l) = PHandshake (packet l) true.
Proof. unfold packet. rewrite be2. reflexivity. Qed.

Lemma init_flags c sender recipient eph :
  find_last R_FLAGS (init_records c sender recipient eph) = Some [1%N] /\
  find_last R_TYPE (init_records c sender recipient eph) = Some [1%N] /\
  find_last R_PROTOCOL_NAME (init_records c sender recipient eph) = Some (hc_protocol c) /\
  find_last R_MODE (init_records c sender recipient eph) = Some (le_bytes 1 (hc_mode_id c)) /\
  find_last R_SENDER_KEY (init_records c sender recipient eph) = Some sender /\
  find_last R_RECIPIENT_KEY (init_records c sender recipient eph) = recipient /\
  find_last R_SENDER_HANDSHAKE_KEY (init_records c sender recipient eph) = Some eph.
Proof. destruct recipient; repeat split. Qed.

Lemma init_twice c c' sender recipient eph p :
  hc_max_buffer c mod 16 = 0 -> HS_MAX <= hc_max_buffer c ->
  key_ok sender -> (forall k, recipient = Some k -> key_ok k) -> key_ok eph ->
  build_init c sender recipient eph = Ok p ->
  exists plain control r, send_free p None = [plain; control] /\
    classify plain = PHandshake p false /\ handshake_handle c' p false = Ok HIgnore /\
    classify control = PHandshake p true /\ handshake_handle c' p true = Ok r /\ r <> HIgnore.
Proof.
  intros Hm Hmb K1 K2 K3 Hb.
  destruct (build_init_cases c sender recipient eph Hm Hmb K1 K2 K3) as [[Hs _]|[_ HB]]; [|congruence].
  destruct (build_init_packet c sender recipient eph Hs Hm Hmb K1 K2 K3) as [E L].
  rewrite E in Hb. injection Hb as <-.
  rewrite length_packet in L. unfold HS_MAX in Hs.
  assert (He : encodable (init_records c sender recipient eph)) by (apply encodable_small; [apply init_types|lia]).
  destruct (parse_packet _ [] He) as [h [H1 [_ [H2 _]]]]. rewrite app_nil_r in H1, H2.
  destruct (init_flags c sender recipient eph) as [F1 [F2 _]].
  destruct (handle_verdict c' _ true h H1) as [r [R1 [R2 _]]].
  exists (packet (init_records c sender recipient eph)), (control_header ++ packet (init_records c sender recipient eph)), r.
  split; [reflexivity|]. split; [apply classify_packet|]. split.
  { apply (handle_plain_flag_ignored c' _ h H1). unfold flags_of. rewrite H2, F1 by (vm_compute; lia). reflexivity. }
  split; [apply classify_control|]. split; [exact R1|].
  intros ->. cbn [verdict_of] in R2. unfold spec_verdict, flags_of in R2. cbv zeta in R2. rewrite !H2 in R2 by (vm_compute; lia).
  rewrite F1, F2 in R2. cbn [negb andb] in R2.
  change (negb (existsb (bytes_eqb [1%N]) [[0%N]; [1%N]])) with false in R2. cbv iota in R2.
  destruct (match find_last R_PROTOCOL_NAME (init_records c sender recipient eph) with Some p => _ | None => false end); [discriminate|].
  destruct (match find_last R_MODE (init_records c sender recipient eph) with Some p => _ | None => false end); discriminate.
Qed.

(** a node with the same protocol and mode takes it as an initial handshake *)
Lemma init_accepted c c' sender recipient eph p :
  hc_max_buffer c mod 16 = 0 -> HS_MAX <= hc_max_buffer c ->
  key_ok sender -> (forall k, recipient = Some k -> key_ok k) -> key_ok eph ->
  hc_protocol c' = hc_protocol c -> ~ In 0%N (hc_protocol c) -> hc_mode_id c' = hc_mode_id c -> (hc_mode_id c < 256)%N ->
  build_init c sender recipient eph = Ok p ->
  exists h, handshake_handle c' p true = Ok (HProtocol h) /\ h_type h = 1%N /\ h_flags h = 1%N /\
    value p h R_SENDER_KEY = Some sender /\ value p h R_RECIPIENT_KEY = recipient /\
    value p h R_SENDER_HANDSHAKE_KEY = Some eph.
Proof.
  intros Hm Hmb K1 K2 K3 Hpr H0 Hmo Hlt Hb.
  destruct (build_init_cases c sender recipient eph Hm Hmb K1 K2 K3) as [[Hs _]|[_ HB]]; [|congruence].
  destruct (build_init_packet c sender recipient eph Hs Hm Hmb K1 K2 K3) as [E L].
  rewrite E in Hb. injection Hb as <-.
  rewrite length_packet in L. unfold HS_MAX in Hs.
  assert (He : encodable (init_records c sender recipient eph)) by (apply encodable_small; [apply init_types|lia]).
  destruct (parse_packet _ [] He) as [h [H1 [_ [H2 _]]]]. rewrite app_nil_r in H1, H2.
  destruct (init_flags c sender recipient eph) as [F1 [F2 [F3 [F4 [F5 [F6 F7]]]]]].
  destruct (handle_verdict c' _ true h H1) as [r [R1 [R2 R3]]].
  unfold spec_verdict, flags_of in R2. cbv zeta in R2. rewrite !H2 in R2 by (vm_compute; lia).
  rewrite F1, F2, F3, F4 in R2. cbn [negb andb] in R2.
  change (negb (existsb (bytes_eqb [1%N]) [[0%N]; [1%N]])) with false in R2. cbv iota in R2.
  rewrite (c_str_id _ H0), Hpr, Hmo in R2.
  match type of R2 with context [negb (bytes_eqb ?a ?b)] => destruct (bytes_eqb_spec a b) as [_|X]; [|exfalso; apply X; reflexivity] end. cbn [negb le_bytes] in R2.
  rewrite (N.mod_small _ _ Hlt) in R2.
  match type of R2 with context [negb (bytes_eqb ?a ?b)] => destruct (bytes_eqb_spec a b) as [_|X]; [|exfalso; apply X; reflexivity] end. cbn [negb] in R2.
  change (1 <=? 1)%N with true in R2. cbv iota in R2.
  destruct r as [|? ? ?|h']; [discriminate|discriminate|]. cbn [verdict_of] in R2. injection R2 as T1 T2.
  exists h'. split; [exact R1|]. split; [exact T1|]. split; [exact T2|].
  specialize (R3 _ eq_refl).
  assert (Vv : forall t, value (packet (init_records c sender recipient eph)) h' t = value (packet (init_records c sender recipient eph)) h t).
  { intro t. unfold value. now rewrite R3. }
  rewrite !Vv, !H2 by (vm_compute; lia). auto.
Qed.

(** ** C24 *)
Lemma c_str_app m r : ~ In 0%N m -> c_str (m ++ 0%N :: r) = m.
Proof.
  induction m as [|b m IH]; intro H; [reflexivity|]. cbn [app c_str].
  destruct (N.eqb_spec b 0) as [->|Hb]; [exfalso; apply H; now left|].
  rewrite IH; [reflexivity|]. intro Hi. apply H. now right.
Qed.

Lemma parse_list_join fuel L acc :
  Forall name_ok L -> length (create_method_list L) <= fuel ->
  parse_string_list fuel (create_method_list L) acc = rev L ++ acc.
Proof.
  revert fuel acc; induction L as [|m L IH]; intros fuel acc HF Hf.
  - destruct fuel; reflexivity.
  - apply Forall_cons_iff in HF. destruct HF as [[Hne H0] HF].
    destruct m as [|b m]; [congruence|].
    destruct L as [|m2 L].
    + cbn [create_method_list length] in Hf |- *. destruct fuel as [|fuel]; [lia|].
      cbn [parse_string_list]. rewrite (c_str_id _ H0). cbn [length].
      rewrite skipn_all2 by (cbn [length]; lia). cbn [rev app]. destruct fuel; reflexivity.
    + change (create_method_list ((b :: m) :: m2 :: L)) with ((b :: m) ++ 0%N :: create_method_list (m2 :: L)) in Hf |- *.
      destruct fuel as [|fuel]; [rewrite app_length in Hf; cbn [length] in Hf; lia|].
      cbn [parse_string_list app]. change (b :: m ++ 0%N :: create_method_list (m2 :: L)) with ((b :: m) ++ 0%N :: create_method_list (m2 :: L)).
      rewrite (c_str_app (b :: m) _ H0).
      replace (skipn (length (b :: m) + 1) ((b :: m) ++ 0%N :: create_method_list (m2 :: L))) with (create_method_list (m2 :: L)).
      * rewrite IH; [cbn [rev]; rewrite <- !app_assoc; reflexivity|exact HF|].
        rewrite app_length in Hf. cbn [length] in Hf. lia.
      * rewrite skipn_app, skipn_all2 by lia. replace (length (b :: m) + 1 - length (b :: m)) with 1 by lia. reflexivity.
Qed.

Lemma fold_rev_find (f : bytes -> bool) L :
  fold_left (fun method name => if f name then Some name else method) (rev L) None = find f L.
Proof.
  induction L as [|m L IH]; [reflexivity|]. cbn [rev find]. rewrite fold_left_app. cbn [fold_left]. rewrite IH.
  destruct (f m); reflexivity.
Qed.

Lemma contains_spec L m : contains L m = true <-> In m L.
Proof.
  unfold contains. rewrite existsb_exists. split.
  - intros [x [Hi Hx]]. destruct (bytes_eqb_spec m x); [congruence|discriminate].
  - intro Hi. exists m. split; [exact Hi|]. destruct (bytes_eqb_spec m m); congruence.
Qed.

Lemma choose_preferred R I :
  Forall name_ok R ->
  get_method_by_name_list I (Some (create_method_list R)) = preferred R I.
Proof.
  intro HF. unfold get_method_by_name_list, preferred.
  destruct (create_method_list R) as [|b d] eqn:E.
  - destruct R as [|m [|m2 R]]; [reflexivity| |].
    + apply Forall_cons_iff in HF. destruct HF as [[Hne _] _]. cbn in E. congruence.
    + apply Forall_cons_iff in HF. destruct HF as [[Hne _] _]. destruct m; [congruence|discriminate].
  - rewrite <- E, parse_list_join by (exact HF || lia). rewrite app_nil_r. apply fold_rev_find.
Qed.

Lemma find_first {A} (f : A -> bool) l x :
  find f l = Some x -> exists a b, l = a ++ x :: b /\ f x = true /\ forall y, In y a -> f y = false.
Proof.
  induction l as [|y l IH]; [discriminate|]. cbn [find]. destruct (f y) eqn:E.
  - intro H. injection H as ->. exists [], l. split; [reflexivity|]. split; [exact E|]. intros z [].
  - intro H. destruct (IH H) as [a [b [-> [H1 H2]]]]. exists (y :: a), b. split; [reflexivity|]. split; [exact H1|].
    intros z [->|Hz]; [exact E|now apply H2].
Qed.

Lemma by_name R m : name_ok m -> get_method_by_name R (Some m) = if contains R m then Some m else None.
Proof. intros [_ H0]. unfold get_method_by_name. now rewrite (c_str_id _ H0). Qed.

Lemma reply_method_list c mtu R sender recipient eph reph tag :
  R <> [] ->
  find_last R_METHOD_LIST (reply_records c 2 mtu None R sender recipient eph reph tag) = Some (create_method_list R).
Proof.
  intro HR. unfold reply_records, common_records. destruct R as [|m R]; [congruence|].
  destruct (N.eqb mtu 0); reflexivity.
Qed.

Lemma reply_method_name c mtu m sender recipient eph reph tag :
  find_last R_METHOD_NAME (reply_records c 3 mtu (Some m) [] sender recipient eph reph tag) = Some m.
Proof. unfold reply_records, common_records. destruct (N.eqb mtu 0); reflexivity. Qed.

Lemma negotiation cr ci mtu R I
    s2 r2 e2 f2 (mac2 : bytes -> bytes) p2 h2 s3 r3 e3 f3 (mac3 : bytes -> bytes) p3 h3 x :
  hc_max_buffer cr mod 16 = 0 -> HS_MAX <= hc_max_buffer cr ->
  hc_max_buffer ci mod 16 = 0 -> HS_MAX <= hc_max_buffer ci ->
  Forall name_ok R -> R <> [] ->
  key_ok s2 -> key_ok r2 -> key_ok e2 -> key_ok f2 -> (forall x, length (mac2 x) = KEY_LEN) ->
  key_ok s3 -> key_ok r3 -> key_ok e3 -> key_ok f3 -> (forall x, length (mac3 x) = KEY_LEN) ->
  build_reply cr 2 mtu None R s2 r2 e2 f2 mac2 = Ok p2 -> parse_tlvs p2 = Ok (Some h2) ->
  get_method_by_name_list I (value p2 h2 R_METHOD_LIST) = Some x ->
  build_reply ci 3 mtu (Some x) [] s3 r3 e3 f3 mac3 = Ok p3 -> parse_tlvs p3 = Ok (Some h3) ->
  get_method_by_name R (value p3 h3 R_METHOD_NAME) = Some x /\
  In x I /\ exists better worse, R = better ++ x :: worse /\ forall y, In y better -> ~ In y I.
Proof.
  intros A1 A2 A3 A4 HF HR K1 K2 K3 K4 M2 K5 K6 K7 K8 M3 B2 P2 G B3 P3.
  destruct (mac_round_trip _ _ _ _ _ _ _ _ _ _ _ A1 A2 K1 K2 K3 K4 M2 B2) as [h2' [x2 [Q2 [_ [_ V2]]]]].
  rewrite P2 in Q2. injection Q2 as <-.
  destruct (mac_round_trip _ _ _ _ _ _ _ _ _ _ _ A3 A4 K5 K6 K7 K8 M3 B3) as [h3' [x3 [Q3 [_ [_ V3]]]]].
  rewrite P3 in Q3. injection Q3 as <-.
  rewrite V2 in G by (vm_compute; lia). rewrite reply_method_list in G by exact HR. rewrite choose_preferred in G by exact HF.
  unfold preferred in G. destruct (find_first _ _ _ G) as [a [b [E1 [E2 E3]]]].
  assert (Hx : In x R) by (rewrite E1; apply in_or_app; right; now left).
  assert (Hok : name_ok x) by (rewrite Forall_forall in HF; now apply HF).
  split.
  - rewrite V3 by (vm_compute; lia). rewrite reply_method_name, by_name by exact Hok.
    apply contains_spec in Hx. now rewrite Hx.
  - split; [now apply contains_spec|]. exists a, b. split; [exact E1|].
    intros y Hy Hi. apply contains_spec in Hi. rewrite (E3 y Hy) in Hi. discriminate.
Qed.

Lemma no_common_method R I : Forall name_ok R -> (forall y, In y R -> ~ In y I) ->
  get_method_by_name_list I (Some (create_method_list R)) = None.
Proof.
  intros HF Hn. rewrite choose_preferred by exact HF. unfold preferred.
  destruct (find _ R) eqn:E; [|reflexivity]. exfalso. apply find_some in E. destruct E as [E1 E2].
  apply contains_spec in E2. exact (Hn _ E1 E2).
Qed.

Lemma some_common_method R I : Forall name_ok R -> (exists y, In y R /\ In y I) ->
  get_method_by_name_list I (Some (create_method_list R)) <> None.
Proof.
  intros HF [y [H1 H2]]. rewrite choose_preferred by exact HF. unfold preferred. intro E.
  apply find_none with (x := y) in E; [|exact H1]. apply contains_spec in H2. congruence.
Qed.

Lemma config_methods_keep names y L :
  In y (fold_left config_method names L) <-> In y L \/ In y names.
Proof.
  revert L; induction names as [|n names IH]; intro L; cbn [fold_left]; [cbn [In]; tauto|].
  rewrite IH. unfold config_method. destruct (contains L n) eqn:E.
  - apply contains_spec in E. cbn [In]. split; [tauto|]. intros [H|[->|H]]; tauto.
  - rewrite in_app_iff. cbn [In]. tauto.
Qed.

Lemma config_methods_prefix names L :
  exists r, fold_left config_method names L = L ++ r.
Proof.
  revert L; induction names as [|n names IH]; intro L; cbn [fold_left]; [exists []; now rewrite app_nil_r|].
  destruct (IH (config_method L n)) as [r ->]. unfold config_method.
  destruct (contains L n); [eauto|]. exists (n :: r). now rewrite <- app_assoc.
Qed.

Lemma config_methods_nodup names L : NoDup L -> NoDup (fold_left config_method names L).
Proof.
  revert L; induction names as [|n names IH]; intros L HL; cbn [fold_left]; [exact HL|].
  apply IH. unfold config_method. destruct (contains L n) eqn:E; [exact HL|].
  rewrite <- (rev_involutive (L ++ [n])). apply NoDup_rev. rewrite rev_app_distr. cbn [rev app].
  constructor; [|now apply NoDup_rev]. rewrite <- in_rev. intro H. apply contains_spec in H. congruence.
Qed.

Lemma config_order names :
  NoDup (fold_left config_method names []) /\
  (forall y, In y (fold_left config_method names []) <-> In y names) /\
  (forall a x b, names = a ++ x :: b -> ~ In x a ->
     exists r, fold_left config_method names [] = fold_left config_method a [] ++ x :: r).
Proof.
  split; [apply config_methods_nodup; constructor|]. split.
  - intro y. rewrite config_methods_keep. cbn [In]. tauto.
  - intros a x b -> Hx. rewrite fold_left_app. cbn [fold_left].
    destruct (config_methods_prefix b (config_method (fold_left config_method a []) x)) as [r ->].
    unfold config_method at 1. destruct (contains (fold_left config_method a []) x) eqn:E.
    + exfalso. apply Hx. apply contains_spec, config_methods_keep in E. destruct E as [[]|E]. exact E.
    + exists r. now rewrite <- app_assoc.
Qed.

Lemma choice_spec R I : Forall name_ok R ->
  (forall x, get_method_by_name_list I (Some (create_method_list R)) = Some x ->
     In x I /\ exists better worse, R = better ++ x :: worse /\ forall y, In y better -> ~ In y I) /\
  (get_method_by_name_list I (Some (create_method_list R)) = None <-> forall y, In y R -> ~ In y I).
Proof.
  intro HF. split.
  - intros x G. rewrite choose_preferred in G by exact HF. unfold preferred in G.
    destruct (find_first _ _ _ G) as [a [b [E1 [E2 E3]]]].
    split; [now apply contains_spec|]. exists a, b. split; [exact E1|].
    intros y Hy Hi. apply contains_spec in Hi. rewrite (E3 y Hy) in Hi. discriminate.
  - split; [|now apply no_common_method]. intros E y H1 H2.
    apply (some_common_method R I HF); [eauto|exact E].
Qed.

Lemma reply_once l flags :
  send_free (packet l) (Some flags) =
    [if N.odd flags then control_header ++ packet l else packet l] /\
  classify (if N.odd flags then control_header ++ packet l else packet l) = PHandshake (packet l) (N.odd flags).
Proof.
  pose proof (flags_bit flags) as Hb. unfold send_free, FLAG_L2TP_SUPPORT.
  destruct (N.eqb (N.land flags 1) 0); cbn [negb] in Hb; rewrite <- Hb; split; reflexivity.
Qed.

(** ** C21 with all datagrams sent *)
Lemma send_free_lengths p flags n :
  CONTROL_HEADER_LEN + length p <= n -> Forall (fun d => length d <= n) (send_free p flags).
Proof.
  intro H. unfold CONTROL_HEADER_LEN in H. unfold send_free.
  destruct flags as [f|]; [destruct (N.eqb (N.land f FLAG_L2TP_SUPPORT) 0)|];
    repeat (constructor; [rewrite ?app_length; cbn [length control_header]; lia|]); constructor.
Qed.

Lemma init_fits c sender recipient eph :
  hc_max_buffer c mod 16 = 0 -> HS_MAX <= hc_max_buffer c ->
  key_ok sender -> (forall k, recipient = Some k -> key_ok k) -> key_ok eph ->
  let space := hs_space c 0 None [] (3 * RECORD_LEN KEY_LEN) in
  (space <= HS_MAX /\ exists p, build_init c sender recipient eph = Ok p /\
                      Forall (fun d => length d <= space) (send_free p None)) \/
  (HS_MAX < space /\ build_init c sender recipient eph = Bug).
Proof.
  intros Hm Hmb K1 K2 K3 space.
  destruct (build_init_cases c sender recipient eph Hm Hmb K1 K2 K3) as [[Hs [p [E L]]]|H]; [left|right; exact H].
  split; [exact Hs|]. exists p. split; [exact E|]. now apply send_free_lengths.
Qed.

Lemma reply_fits c type hmtu method methods sender recipient eph reph (mac : bytes -> bytes) flags :
  hc_max_buffer c mod 16 = 0 -> HS_MAX <= hc_max_buffer c ->
  key_ok sender -> key_ok recipient -> key_ok eph -> key_ok reph -> (forall x, length (mac x) = KEY_LEN) ->
  let space := hs_space c hmtu method methods (5 * RECORD_LEN KEY_LEN) in
  (space <= HS_MAX /\
   exists p, build_reply c type hmtu method methods sender recipient eph reph mac = Ok p /\
     Forall (fun d => length d <= space) (send_free p flags)) \/
  (HS_MAX < space /\ build_reply c type hmtu method methods sender recipient eph reph mac = Bug).
Proof.
  intros Hm Hmb K1 K2 K3 K4 K5 space.
  destruct (build_reply_cases c type hmtu method methods sender recipient eph reph mac Hm Hmb K1 K2 K3 K4 K5)
    as [[Hs [p [E L]]]|H]; [left|right; exact H].
  split; [exact Hs|]. exists p. split; [exact E|]. now apply send_free_lengths.
Qed.

Lemma hs_buffer ps m mtu pm c :
  hc_max_buffer c = z_max_buffer (configure ps m mtu pm) ->
  hc_max_buffer c mod 16 = 0 /\ HS_MAX <= hc_max_buffer c.
Proof. intros ->. pose proof (size_facts ps m mtu pm) as F. cbv zeta in F. unfold HS_MAX, MAX_HANDSHAKE_SIZE in *. tauto. Qed.

Lemma error_fits ps m mtu pm type code detail flags :
  exists p, build_error (z_max_buffer (configure ps m mtu pm)) type code detail = Ok p /\
    Forall (fun d => length d <= 39) (send_free p flags).
Proof.
  destruct (hs_buffer ps m mtu pm (mk_hs_conf [] [] 0 (z_max_buffer (configure ps m mtu pm))) eq_refl) as [_ H].
  cbn [hc_max_buffer] in H. unfold HS_MAX in H.
  destruct (build_error_packet (z_max_buffer (configure ps m mtu pm)) type code detail ltac:(lia)) as [d [_ [E L]]].
  eexists. split; [exact E|]. now apply send_free_lengths.
Qed.
