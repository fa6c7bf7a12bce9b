(** Property theorems C19-C24: handshake packets. *)
From Verif Require Import Base BufferModel MethodModel SizeModel SizeProofs HandshakeModel HandshakeSpec
  HandshakeProofs HandshakeProofs2 HandshakeProofs3 HandshakeProofs4.

(** ** C19  Handshake TLV records round-trip *)
Theorem C19_round_trip :
  forall cap l p post,
    encodable l -> compose cap hs_empty l = Ok p ->
    length p <= Nat.max 4 cap /\
    tlv_len_of p = N.of_nat (length p - 4) /\
    exists h, parse_tlvs (p ++ post) = Ok (Some h) /\
      forall t, t < RECORD_MAX -> value (p ++ post) h t = find_last t l.
Proof. exact tlv_round_trip. Qed.
Print Assumptions C19_round_trip.

(** Composing succeeds whenever the result fits. *)
Theorem C19_composes :
  forall cap l,
    encodable l -> 4 + length (area l) <= cap -> compose cap hs_empty l = Ok (packet l).
Proof. intros cap l [_ Hn] Hc. exact (compose_packet cap l [] Hc Hn). Qed.
Print Assumptions C19_composes.

Theorem C19_integers :
  forall cap pkt0 ty v p,
    (v < 2 ^ 32)%N -> hs_add_uint cap pkt0 ty v = Ok p ->
    exists n, 1 <= n <= 4 /\ hs_add cap pkt0 ty (le_bytes n v) = Ok p /\
      forall pkt h o, h_records h ty = Some (o, n) -> o + n <= length pkt ->
        slice pkt o n = le_bytes n v -> as_uint pkt h ty = Ok v.
Proof. exact uint_round_trip. Qed.
Print Assumptions C19_integers.

(** The MAC of a reply is computed by the receiver over the same bytes as by the
    sender, for any MAC function. *)
Theorem C19_mac_round_trip :
  forall c type mtu method methods sender recipient eph reph mac p,
    hc_max_buffer c mod 16 = 0 -> HS_MAX <= hc_max_buffer c ->
    key_ok sender -> key_ok recipient -> key_ok eph -> key_ok reph -> (forall x, length (mac x) = KEY_LEN) ->
    build_reply c type mtu method methods sender recipient eph reph mac = Ok p ->
    exists h x, parse_tlvs p = Ok (Some h) /\ mac_input p h = Some x /\ value p h R_TLV_MAC = Some (mac x) /\
      forall t, t < RECORD_MAX ->
        value p h t = find_last t (reply_records c type mtu method methods sender recipient eph reph (mac x)).
Proof. exact mac_round_trip. Qed.
Print Assumptions C19_mac_round_trip.

Definition ex_conf : hs_conf := mk_hs_conf [101; 99]%N [118; 50; 50]%N 1 1536.
Definition ex_key (n : N) : bytes := repeat n 32.
Definition ex_methods : list bytes := [[115; 97]; [110]; [97; 101; 115]]%N.

Example C19_nonvacuous :
  let l := [(R_TYPE, [2]%N); (R_MTU, [220; 5]%N); (R_TYPE, [3]%N); (300, [1; 2; 3]%N)] in
  encodable l /\ (exists p, compose 100 hs_empty l = Ok p /\ length p = 27) /\
  find_last R_TYPE l = Some [3]%N /\ find_last R_MODE l = None /\
  exists p, build_reply ex_conf 2 1406 None ex_methods (ex_key 1) (ex_key 2) (ex_key 3) (ex_key 4) (fun _ => ex_key 9) = Ok p.
Proof.
  cbv zeta. split; [|split; [|split; [|split]]]; try reflexivity.
  - split; [repeat constructor|reflexivity].
  - eexists. split; vm_compute; reflexivity.
  - eexists. vm_compute. reflexivity.
Qed.

(** ** C20  Handshake parsing never reads outside the packet *)
(** A datagram is dispatched by the first byte of the packet it carries, which
    it has *)
Theorem C20_dispatch :
  forall d,
    match classify d with
    | PHandshake pkt ctl => carries d pkt ctl /\ exists r, pkt = 1%N :: r
    | PData pkt ctl => carries d pkt ctl /\ exists t r, pkt = t :: r /\ t <> 1%N /\ N.land t 128 = 0%N
    | PInvalid => forall pkt ctl, carries d pkt ctl -> exists t r, pkt = t :: r /\ t <> 1%N /\ N.land t 128 <> 0%N
    end.
Proof. exact classify_spec. Qed.
Print Assumptions C20_dispatch.
Example C20_dispatch_ex :
  classify [200; 3; 0; 0; 0; 0; 0; 0; 0; 0; 0; 0; 1; 0]%N = PHandshake [1; 0]%N true /\
  classify [200; 3; 0; 0; 0; 0; 0; 0; 0; 0; 0; 0]%N = PInvalid /\ classify [2; 7]%N = PData [2; 7]%N false.
Proof. vm_compute. repeat split. Qed.

Theorem C20_parse_inside :
  forall pkt, exists oh, parse_tlvs pkt = Ok oh /\ forall h, oh = Some h -> records_inside pkt h.
Proof. exact parse_inside. Qed.
Print Assumptions C20_parse_inside.

Theorem C20_handle_safe :
  forall c pkt ctl,
    exists r, handshake_handle c pkt ctl = Ok r /\
      match r with HIgnore => True | HError _ _ h | HProtocol h => records_inside pkt h end.
Proof. exact handle_ok. Qed.
Print Assumptions C20_handle_safe.

(** The reads of keys and MACs by the protocol, after [has_field]. *)
Theorem C20_field_reads_safe :
  forall pkt h t n,
    records_inside pkt h -> has_field h t n = true -> 1 <= n ->
    exists d, rec_read pkt h t n = Ok d /\ length d = n.
Proof. exact has_field_inside. Qed.
Print Assumptions C20_field_reads_safe.

(** What is done with a packet, as a function of the record values alone. *)
Theorem C20_handle_verdict :
  forall c pkt ctl h,
    parse_tlvs pkt = Ok (Some h) ->
    exists r, handshake_handle c pkt ctl = Ok r /\ verdict_of r = spec_verdict c ctl (value pkt h) /\
      (forall recs, outcome_records r = Some recs -> recs = h_records h).
Proof. exact handle_verdict. Qed.
Print Assumptions C20_handle_verdict.

(** a packet whose second record claims to be longer than the packet *)
Example C20_nonvacuous :
  exists h, parse_tlvs [1; 0; 0; 9; 0; 0; 1; 0; 7; 4; 0; 255; 0]%N = Ok (Some h) /\
    h_records h R_TYPE = Some (8, 1) /\ h_records h R_MODE = None /\
    parse_tlvs [1; 0; 0; 10; 0; 0; 1; 0; 7; 4; 0; 255; 0]%N = Ok None.
Proof. eexists. split; [vm_compute; reflexivity|]. repeat split. Qed.

(** ** C21  Handshake packets always fit *)
Theorem C21_init_fits :
  forall ps m mtu pm c sender recipient eph,
    hc_max_buffer c = z_max_buffer (configure ps m mtu pm) ->
    key_ok sender -> (forall k, recipient = Some k -> key_ok k) -> key_ok eph ->
    let space := hs_space c 0 None [] (3 * RECORD_LEN KEY_LEN) in
    (space <= 1232 /\ exists p, build_init c sender recipient eph = Ok p /\
                      Forall (fun d => length d <= space) (send_free p None)) \/
    (1232 < space /\ build_init c sender recipient eph = Bug).
Proof.
  intros ps m mtu pm c sender recipient eph Hb K1 K2 K3.
  exact (init_fits c sender recipient eph (proj1 (hs_buffer ps m mtu pm c Hb)) (proj2 (hs_buffer ps m mtu pm c Hb)) K1 K2 K3).
Qed.
Print Assumptions C21_init_fits.

Theorem C21_reply_fits :
  forall ps m mtu pm c type hmtu method methods sender recipient eph reph mac flags,
    hc_max_buffer c = z_max_buffer (configure ps m mtu pm) ->
    key_ok sender -> key_ok recipient -> key_ok eph -> key_ok reph -> (forall x, length (mac x) = KEY_LEN) ->
    let space := hs_space c hmtu method methods (5 * RECORD_LEN KEY_LEN) in
    (space <= 1232 /\
     exists p, build_reply c type hmtu method methods sender recipient eph reph mac = Ok p /\
       Forall (fun d => length d <= space) (send_free p flags)) \/
    (1232 < space /\ build_reply c type hmtu method methods sender recipient eph reph mac = Bug).
Proof.
  intros ps m mtu pm c type hmtu method methods sender recipient eph reph mac flags Hb K1 K2 K3 K4 K5.
  exact (reply_fits c type hmtu method methods sender recipient eph reph mac flags
    (proj1 (hs_buffer ps m mtu pm c Hb)) (proj2 (hs_buffer ps m mtu pm c Hb)) K1 K2 K3 K4 K5).
Qed.
Print Assumptions C21_reply_fits.

Theorem C21_error_fits :
  forall ps m mtu pm type code detail flags,
    exists p, build_error (z_max_buffer (configure ps m mtu pm)) type code detail = Ok p /\
      Forall (fun d => length d <= 39) (send_free p flags).
Proof. exact error_fits. Qed.
Print Assumptions C21_error_fits.

Example C21_nonvacuous :
  hs_space ex_conf 1406 None ex_methods (5 * RECORD_LEN KEY_LEN) = 251 /\
  (exists p, build_reply ex_conf 2 1406 None ex_methods (ex_key 1) (ex_key 2) (ex_key 3) (ex_key 4) (fun _ => ex_key 9) = Ok p
     /\ length p = 235) /\
  build_reply ex_conf 2 1406 None (repeat (ex_key 65) 40) (ex_key 1) (ex_key 2) (ex_key 3) (ex_key 4) (fun _ => ex_key 9) = Bug.
Proof. split; [vm_compute; reflexivity|]. split; [eexists; split; vm_compute; reflexivity|vm_compute; reflexivity]. Qed.

(** ** C22  Error replies are never answered *)

(** The only ways to send something on reception of a handshake packet are an
    error reply ([HError]) and the protocol's handler, which returns at once if
    there is no sender key record of 32 bytes. *)
Theorem C22_error_reply_unanswered :
  forall mb type code detail p c ctl,
    build_error mb type code detail = Ok p ->
    exists r, handshake_handle c p ctl = Ok r /\
      (r = HIgnore \/ exists h, r = HProtocol h /\ has_field h R_SENDER_KEY KEY_LEN = false).
Proof. exact error_ignored. Qed.
Print Assumptions C22_error_reply_unanswered.

Example C22_nonvacuous :
  exists p h, build_error 1536 0 REPLY_UNACCEPTABLE_VALUE 4 = Ok p /\
    handshake_handle ex_conf p true = Ok (HProtocol h) /\ h_type h = 1%N.
Proof.
  eexists. eexists. split; [vm_compute; reflexivity|]. split; [|]; [vm_compute; reflexivity|reflexivity].
Qed.

(** ** C23  Old and new style initial handshakes are answered once *)
Theorem C23_initial_processed_once :
  forall c c' sender recipient eph p,
    hc_max_buffer c mod 16 = 0 -> HS_MAX <= hc_max_buffer c ->
    key_ok sender -> (forall k, recipient = Some k -> key_ok k) -> key_ok eph ->
    build_init c sender recipient eph = Ok p ->
    exists plain control r, send_free p None = [plain; control] /\
      classify plain = PHandshake p false /\ handshake_handle c' p false = Ok HIgnore /\
      classify control = PHandshake p true /\ handshake_handle c' p true = Ok r /\ r <> HIgnore.
Proof. exact init_twice. Qed.
Print Assumptions C23_initial_processed_once.

Theorem C23_initial_accepted :
  forall c c' sender recipient eph p,
    hc_max_buffer c mod 16 = 0 -> HS_MAX <= hc_max_buffer c ->
    key_ok sender -> (forall k, recipient = Some k -> key_ok k) -> key_ok eph ->
    hc_protocol c' = hc_protocol c -> ~ In 0%N (hc_protocol c) ->
    hc_mode_id c' = hc_mode_id c -> (hc_mode_id c < 256)%N ->
    build_init c sender recipient eph = Ok p ->
    exists h, handshake_handle c' p true = Ok (HProtocol h) /\ h_type h = 1%N /\ h_flags h = 1%N /\
      value p h R_SENDER_KEY = Some sender /\ value p h R_RECIPIENT_KEY = recipient /\
      value p h R_SENDER_HANDSHAKE_KEY = Some eph.
Proof. exact init_accepted. Qed.
Print Assumptions C23_initial_accepted.

(** Any packet of a node that has the L2TP flag is ignored without, any other
    one is handled the same with and without control header. *)
Theorem C23_flag_without_header_ignored :
  forall c pkt h,
    parse_tlvs pkt = Ok (Some h) -> N.odd (flags_of (value pkt h)) = true ->
    handshake_handle c pkt false = Ok HIgnore.
Proof. exact handle_plain_flag_ignored. Qed.
Print Assumptions C23_flag_without_header_ignored.

Theorem C23_no_flag_same :
  forall c pkt h,
    parse_tlvs pkt = Ok (Some h) -> N.odd (flags_of (value pkt h)) = false ->
    handshake_handle c pkt false = handshake_handle c pkt true.
Proof. exact handle_no_flag_same. Qed.
Print Assumptions C23_no_flag_same.

(** Replies are sent exactly once, in the format the received flags ask for. *)
Theorem C23_reply_once :
  forall l flags,
    send_free (packet l) (Some flags) =
      [if N.odd flags then control_header ++ packet l else packet l] /\
    classify (if N.odd flags then control_header ++ packet l else packet l) = PHandshake (packet l) (N.odd flags).
Proof. exact reply_once. Qed.
Print Assumptions C23_reply_once.

Example C23_nonvacuous :
  exists p h, build_init ex_conf (ex_key 1) (Some (ex_key 2)) (ex_key 3) = Ok p /\
    handshake_handle ex_conf p true = Ok (HProtocol h) /\ handshake_handle ex_conf p false = Ok HIgnore.
Proof.
  eexists. eexists. split; [vm_compute; reflexivity|]. split; vm_compute; reflexivity.
Qed.

(** ** C24  Both ends agree on the method and it is one both configured *)

(** [R] is the list of the responder, whose order is the wire order, [I] the
    initiator's. *)
Theorem C24_agreement :
  forall cr ci mtu R I s2 r2 e2 f2 mac2 p2 h2 s3 r3 e3 f3 mac3 p3 h3 x,
    hc_max_buffer cr mod 16 = 0 -> HS_MAX <= hc_max_buffer cr ->
    hc_max_buffer ci mod 16 = 0 -> HS_MAX <= hc_max_buffer ci ->
    Forall name_ok R -> R <> [] ->
    key_ok s2 -> key_ok r2 -> key_ok e2 -> key_ok f2 -> (forall x, length (mac2 x) = KEY_LEN) ->
    key_ok s3 -> key_ok r3 -> key_ok e3 -> key_ok f3 -> (forall x, length (mac3 x) = KEY_LEN) ->
    build_reply cr 2 mtu None R s2 r2 e2 f2 mac2 = Ok p2 -> parse_tlvs p2 = Ok (Some h2) ->
    get_method_by_name_list I (value p2 h2 R_METHOD_LIST) = Some x ->
    build_reply ci 3 mtu (Some x) [] s3 r3 e3 f3 mac3 = Ok p3 -> parse_tlvs p3 = Ok (Some h3) ->
    get_method_by_name R (value p3 h3 R_METHOD_NAME) = Some x /\
    In x I /\ exists better worse, R = better ++ x :: worse /\ forall y, In y better -> ~ In y I.
Proof. exact negotiation. Qed.
Print Assumptions C24_agreement.

Theorem C24_choice :
  forall R I, Forall name_ok R ->
    (forall x, get_method_by_name_list I (Some (create_method_list R)) = Some x ->
       In x I /\ exists better worse, R = better ++ x :: worse /\ forall y, In y better -> ~ In y I) /\
    (get_method_by_name_list I (Some (create_method_list R)) = None <-> forall y, In y R -> ~ In y I).
Proof. exact choice_spec. Qed.
Print Assumptions C24_choice.

(** The configured list: statements in their order, each name once. *)
Theorem C24_config_order :
  forall names,
    NoDup (fold_left config_method names []) /\
    (forall y, In y (fold_left config_method names []) <-> In y names) /\
    (forall a x b, names = a ++ x :: b -> ~ In x a ->
       exists r, fold_left config_method names [] = fold_left config_method a [] ++ x :: r).
Proof. exact config_order. Qed.
Print Assumptions C24_config_order.

Example C24_nonvacuous :
  Forall name_ok ex_methods /\
  get_method_by_name_list [[97; 101; 115]; [110]]%N (Some (create_method_list ex_methods)) = Some [110]%N /\
  get_method_by_name ex_methods (Some [110]%N) = Some [110]%N.
Proof.
  split; [|split; vm_compute; reflexivity].
  repeat (constructor; [split; [discriminate|cbn [In]; intuition discriminate]|]). constructor.
Qed.
