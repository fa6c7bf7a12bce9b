(** Two nodes connect, part 1: what a node sees in the packets of its partner. *)
From Verif Require Import Base BaseLemmas BufferModel BufferProofs NonceModel MethodModel HandshakeModel HandshakeSpec HandshakeProofs HandshakeProofs2 HandshakeProofs3
  NodeModel NodeSpec NodeProofs NodeSafe4 NodeWire NodeConnectSpec.
From Coq Require Import Lia ZifyBool ZifyNat ZifyN.

Definition exact_len (n : nat) (v : option bytes) : option bytes :=
  match v with Some b => if Nat.eqb (length b) n then Some b else None | None => None end.

Lemma fld_is : forall pkt h t n, records_inside pkt h -> (1 <= n)%nat -> fld pkt h t n = Ok (exact_len n (value pkt h t)).
Proof.
  intros pkt h t n Hi Hn. unfold fld, has_field. destruct (value pkt h t) as [v|] eqn:V.
  - destruct (value_some pkt h t v Hi V) as (_ & L & R & _). rewrite L. unfold exact_len. destruct (Nat.eqb_spec (length v) n) as [E|E]; [|reflexivity].
    rewrite <- E, R. reflexivity.
  - destruct (value_none pkt h t V) as (_ & L). rewrite L. destruct (Nat.eqb_spec 0 n); [lia|]. reflexivity.
Qed.
Lemma fld_any_is : forall pkt h t, records_inside pkt h -> fld_any pkt h t = Ok (value pkt h t).
Proof.
  intros pkt h t Hi. unfold fld_any. destruct (value pkt h t) as [v|] eqn:V.
  - destruct (value_some pkt h t v Hi V) as (Hp & L & R & _). rewrite Hp, L, R. reflexivity.
  - destruct (value_none pkt h t V) as (Hp & _). rewrite Hp. reflexivity.
Qed.
Lemma mtu_is : forall pkt h, records_inside pkt h ->
  (if Nat.eqb (rec_len h R_MTU) 2 then do v <- as_uint16 pkt h R_MTU; Ok (Some v) else Ok None) =
  Ok (match exact_len 2 (value pkt h R_MTU) with Some b => Some (nth 1 b 0 * 256 + nth 0 b 0)%N | None => None end).
Proof.
  intros pkt h Hi. unfold as_uint16. destruct (value pkt h R_MTU) as [v|] eqn:V.
  - destruct (value_some pkt h R_MTU v Hi V) as (Hp & L & R & _). rewrite L. unfold exact_len. destruct (Nat.eqb_spec (length v) 2) as [E|E]; [|reflexivity].
    rewrite <- E, R. reflexivity.
  - destruct (value_none pkt h R_MTU V) as (Hp & L). rewrite L. reflexivity.
Qed.

Lemma view_is : forall pkt h, records_inside pkt h ->
  view pkt h = Ok {| w_type := h_type h; w_flags := h_flags h;
    w_sender := exact_len KEY_LEN (value pkt h R_SENDER_KEY); w_recipient := exact_len KEY_LEN (value pkt h R_RECIPIENT_KEY);
    w_sender_hk := exact_len KEY_LEN (value pkt h R_SENDER_HANDSHAKE_KEY); w_recipient_hk := exact_len KEY_LEN (value pkt h R_RECIPIENT_HANDSHAKE_KEY);
    w_mac := match exact_len KEY_LEN (value pkt h R_TLV_MAC), mac_input pkt h with Some m, Some x => Some (m, x) | _, _ => None end;
    w_mtu := match exact_len 2 (value pkt h R_MTU) with Some b => Some (nth 1 b 0 * 256 + nth 0 b 0)%N | None => None end;
    w_method := value pkt h R_METHOD_NAME; w_method_list := value pkt h R_METHOD_LIST |}.
Proof.
  intros pkt h Hi. unfold view. assert (K : (1 <= KEY_LEN)%nat) by (unfold KEY_LEN; lia).
  rewrite !fld_is by assumption. cbn [bind]. rewrite mtu_is by assumption. cbn [bind]. rewrite !fld_any_is by assumption. cbn [bind].
  f_equal. f_equal. unfold value, mac_input, zero_mac. destruct (h_records h R_TLV_MAC) as [[o n]|]; cbn [exact_len]; [|reflexivity].
  destruct (Nat.eqb _ _); reflexivity.
Qed.

Lemma parsed_inside : forall pkt h, parse_tlvs pkt = Ok (Some h) -> records_inside pkt h.
Proof.
  intros pkt h H. destruct (parse_inside pkt) as (oh & E & X). rewrite H in E. injection E as <-. exact (X h eq_refl).
Qed.

(** a handled packet is seen as its records are *)
Lemma handled_view : forall c pkt h t f, parse_tlvs pkt = Ok (Some h) -> spec_verdict c true (value pkt h) = VProtocol t f ->
  exists h', handshake_handle c pkt true = Ok (HProtocol h') /\
    view pkt h' = Ok {| w_type := t; w_flags := f;
      w_sender := exact_len KEY_LEN (value pkt h R_SENDER_KEY); w_recipient := exact_len KEY_LEN (value pkt h R_RECIPIENT_KEY);
      w_sender_hk := exact_len KEY_LEN (value pkt h R_SENDER_HANDSHAKE_KEY); w_recipient_hk := exact_len KEY_LEN (value pkt h R_RECIPIENT_HANDSHAKE_KEY);
      w_mac := match exact_len KEY_LEN (value pkt h R_TLV_MAC), mac_input pkt h with Some m, Some x => Some (m, x) | _, _ => None end;
      w_mtu := match exact_len 2 (value pkt h R_MTU) with Some b => Some (nth 1 b 0 * 256 + nth 0 b 0)%N | None => None end;
      w_method := value pkt h R_METHOD_NAME; w_method_list := value pkt h R_METHOD_LIST |}.
Proof.
  intros c pkt h t f Hp Hv. destruct (handle_verdict c pkt true h Hp) as (r & R1 & R2 & _). rewrite Hv in R2.
  destruct r as [|? ? ?|h']; try discriminate. cbn [verdict_of] in R2. injection R2 as E1 E2. exists h'. split; [exact R1|].
  destruct (handled_parsed _ _ _ _ R1) as (h0 & X1 & X2 & X3). rewrite Hp in X1. injection X1 as <-.
  pose proof (parsed_inside _ _ Hp) as Hi.
  assert (Hi' : records_inside pkt h').
  { destruct Hi as [A B]. split; [rewrite X3; exact A|]. intros ty o n. rewrite X2, X3. apply B. }
  rewrite (view_is _ _ Hi'). unfold value, mac_input. rewrite X2, X3, E1, E2. reflexivity.
Qed.

Lemma exact_key : forall k, length k = 32%nat -> exact_len KEY_LEN (Some k) = Some k.
Proof. intros k E. unfold exact_len. rewrite E. reflexivity. Qed.

Section Views.
Variables c c' : hs_conf.
Hypothesis Hbuf : (hc_max_buffer c mod 16 = 0 /\ 1232 <= hc_max_buffer c)%nat.
Hypothesis Hproto : hc_protocol c = hc_protocol c'.
Hypothesis Hname : ~ In 0%N (hc_protocol c).
Hypothesis Hmode : hc_mode_id c = hc_mode_id c'.
Hypothesis Hbyte : (hc_mode_id c < 256)%N.

Lemma verdict_common : forall (rv : nat -> option bytes) type mtu method methods l,
  (forall t, t < RECORD_MAX -> rv t = find_last t (common_records c type mtu method methods ++ l)) ->
  (forall t v, In (t, v) l -> t <> R_TYPE /\ t <> R_FLAGS /\ t <> R_MODE /\ t <> R_PROTOCOL_NAME) ->
  (type < 256)%N -> ((type <= 1)%N \/ rv R_REPLY_CODE = Some [0%N]) ->
  spec_verdict c' true rv = VProtocol type 1.
Proof.
  intros rv type mtu method methods l Hrv Hl Ht Hrep.
  assert (N0 : forall t, (forall v, ~ In (t, v) l) -> find_last t l = None).
  { clear Hrv Hl Hrep. intros t. induction l as [|[t' v'] l IH]; intros H; [reflexivity|]. cbn [find_last]. rewrite IH.
    - destruct (Nat.eqb_spec t t') as [->|]; [|reflexivity]. exfalso. apply (H v'). left. reflexivity.
    - intros v X. apply (H v). right. exact X. }
  assert (F : forall t, t < RECORD_MAX -> (forall v, ~ In (t, v) l) -> rv t = find_last t (common_records c type mtu method methods)).
  { intros t Hlt Hn. rewrite (Hrv t Hlt), find_last_app, (N0 t Hn). reflexivity. }
  assert (FT : rv R_TYPE = Some [type]).
  { rewrite F; [|vm_compute; lia | intros v X; destruct (Hl _ _ X) as (Y & _); congruence]. unfold common_records. cbn [le_bytes].
    rewrite N.mod_small by exact Ht. destruct (N.eqb mtu 0), method, methods; reflexivity. }
  assert (FF : rv R_FLAGS = Some [1%N]).
  { rewrite F; [|vm_compute; lia | intros v X; destruct (Hl _ _ X) as (_ & Y & _); congruence]. unfold common_records.
    destruct (N.eqb mtu 0), method, methods; reflexivity. }
  assert (FM : rv R_MODE = Some [hc_mode_id c]).
  { rewrite F; [|vm_compute; lia | intros v X; destruct (Hl _ _ X) as (_ & _ & Y & _); congruence]. unfold common_records. cbn [le_bytes].
    rewrite (N.mod_small (hc_mode_id c)) by exact Hbyte. destruct (N.eqb mtu 0), method, methods; reflexivity. }
  assert (FP : rv R_PROTOCOL_NAME = Some (hc_protocol c)).
  { rewrite F; [|vm_compute; lia | intros v X; destruct (Hl _ _ X) as (_ & _ & _ & Y); congruence]. unfold common_records.
    destruct (N.eqb mtu 0), method, methods; reflexivity. }
  unfold spec_verdict, flags_of. cbv zeta. rewrite FT, FF, FM, FP. cbn [negb andb].
  change (negb (existsb (bytes_eqb [1%N]) [[0%N]; [1%N]])) with false. cbv iota.
  rewrite (c_str_id _ Hname), Hproto, Hmode.
  match goal with |- context [negb (bytes_eqb ?a ?b)] => destruct (bytes_eqb_spec a b) as [_|X]; [|exfalso; apply X; reflexivity] end. cbn [negb].
  match goal with |- context [negb (bytes_eqb ?a ?b)] => destruct (bytes_eqb_spec a b) as [_|X]; [|exfalso; apply X; reflexivity] end. cbn [negb].
  destruct (N.leb_spec type 1) as [H|H]; [reflexivity|]. destruct Hrep as [X|X]; [lia|]. rewrite X. reflexivity.
Qed.

Lemma init_seen : forall sender recipient eph d, length sender = 32%nat -> (forall k, recipient = Some k -> length k = 32%nat) -> length eph = 32%nat ->
  with_header (build_init c sender recipient eph) = Ok d ->
  exists pkt h, classify d = PHandshake pkt true /\ handshake_handle c' pkt true = Ok (HProtocol h) /\
    view pkt h = Ok (mk_view 1 1 (Some sender) recipient (Some eph) None None None None None).
Proof.
  intros sender recipient eph d K1 K2 K3 H. unfold with_header in H. destruct (build_init c sender recipient eph) as [pkt| | |] eqn:Hb; try discriminate.
  cbn [bind] in H. injection H as <-.
  destruct Hbuf as [Hm Hmb].
  destruct (build_init_cases c sender recipient eph Hm Hmb K1 K2 K3) as [[Hs _]|[_ HB]]; [|congruence].
  destruct (build_init_packet c sender recipient eph Hs Hm Hmb K1 K2 K3) as [E L].
  rewrite E in Hb. injection Hb as <-.
  rewrite length_packet in L. unfold HS_MAX in Hs.
  assert (He : encodable (init_records c sender recipient eph)) by (apply encodable_small; [apply init_types|lia]).
  destruct (parse_packet _ [] He) as [h [H1 [_ [H2 _]]]]. rewrite app_nil_r in H1, H2.
  assert (V : spec_verdict c' true (value (packet (init_records c sender recipient eph)) h) = VProtocol 1 1).
  { apply (verdict_common _ 1 0 None [] ([(R_SENDER_KEY, sender)] ++ match recipient with Some k => [(R_RECIPIENT_KEY, k)] | None => [] end ++ [(R_SENDER_HANDSHAKE_KEY, eph)]) H2);
      [| reflexivity | left; lia]. intros t v X. destruct recipient; cbn [app In] in X;
      repeat match type of X with _ \/ _ => destruct X as [X|X] | False => contradiction X | _ => injection X as <- _; vm_compute; lia end. }
  destruct (handled_view _ _ _ _ _ H1 V) as (h' & R1 & R2). exists (packet (init_records c sender recipient eph)), h'. split; [apply classify_control|]. split; [exact R1|].
  rewrite R2. rewrite !H2 by (vm_compute; lia).
  destruct (init_flags c sender recipient eph) as [F1 [F2 [F3 [F4 [F5 [F6 F7]]]]]]. rewrite F5, F6, F7, !exact_key by assumption.
  assert (Er : exact_len KEY_LEN recipient = recipient) by (destruct recipient as [k|]; [apply exact_key; apply K2; reflexivity | reflexivity]).
  rewrite Er. destruct recipient; reflexivity.
Qed.

Lemma reply_seen : forall type mtu method methods sender recipient eph reph (mac : bytes -> bytes) d, (type < 256)%N -> (mtu < 65536)%N ->
  length sender = 32%nat -> length recipient = 32%nat -> length eph = 32%nat -> length reph = 32%nat -> (forall x, length (mac x) = 32%nat) ->
  with_header (build_reply c type mtu method methods sender recipient eph reph mac) = Ok d ->
  exists pkt h x, classify d = PHandshake pkt true /\ handshake_handle c' pkt true = Ok (HProtocol h) /\
    view pkt h = Ok (mk_view type 1 (Some sender) (Some recipient) (Some eph) (Some reph) (Some (mac x, x)) (if N.eqb mtu 0 then None else Some mtu)
      (match methods with [] => method | _ => None end) (match methods with [] => None | _ => Some (create_method_list methods) end)).
Proof.
  intros type mtu method methods sender recipient eph reph mac d Ht Hmtu K1 K2 K3 K4 Hmac H. unfold with_header in H.
  destruct (build_reply c type mtu method methods sender recipient eph reph mac) as [pkt| | |] eqn:Hb; try discriminate.
  cbn [bind] in H. injection H as <-. destruct Hbuf as [Hm Hmb].
  destruct (mac_round_trip _ _ _ _ _ _ _ _ _ _ _ Hm Hmb K1 K2 K3 K4 Hmac Hb) as (h & x & H1 & H3 & _ & H2).
  destruct (build_reply_cases c type mtu method methods sender recipient eph reph mac Hm Hmb K1 K2 K3 K4 Hmac) as [[Hs _]|[_ HB]]; [|congruence].
  pose proof (build_reply_packet c type mtu method methods sender recipient eph reph mac Hs Hm Hmb K1 K2 K3 K4 Hmac) as X. cbv zeta in X.
  destruct X as [E _]. rewrite E in Hb. injection Hb as Hb.
  assert (V : spec_verdict c' true (value pkt h) = VProtocol type 1).
  { apply (verdict_common _ type mtu method methods _ H2); [| exact Ht |].
    - intros t v X. cbn [In] in X. repeat match type of X with _ \/ _ => destruct X as [X|X] | False => contradiction X | _ => injection X as <- _; vm_compute; lia end.
    - right. rewrite H2 by (vm_compute; lia). unfold reply_records. rewrite find_last_app. reflexivity. }
  destruct (handled_view _ _ _ _ _ H1 V) as (h' & R1 & R2). exists pkt, h', x. split; [rewrite <- Hb; apply classify_control|]. split; [exact R1|].
  rewrite R2, H3. rewrite !H2 by (vm_compute; lia).
  assert (T : forall t, find_last t (reply_records c type mtu method methods sender recipient eph reph (mac x)) =
    match find_last t [(R_REPLY_CODE, [0]%N); (R_SENDER_KEY, sender); (R_RECIPIENT_KEY, recipient); (R_SENDER_HANDSHAKE_KEY, eph);
                       (R_RECIPIENT_HANDSHAKE_KEY, reph); (R_TLV_MAC, mac x)] with
    | Some v => Some v
    | None => find_last t (common_records c type mtu method methods)
    end) by (intro t; apply find_last_app).
  rewrite !T. cbn [find_last Nat.eqb R_REPLY_CODE R_SENDER_KEY R_RECIPIENT_KEY R_SENDER_HANDSHAKE_KEY R_RECIPIENT_HANDSHAKE_KEY R_TLV_MAC R_MTU R_METHOD_NAME R_METHOD_LIST].
  rewrite !exact_key by (assumption || apply Hmac).
  f_equal. f_equal.
  - unfold common_records. destruct (N.eqb_spec mtu 0) as [->|Hz].
    + destruct method, methods; reflexivity.
    + match goal with |- context [find_last ?t ?l] => assert (Em : find_last t l = Some (le_bytes 2 mtu)) by (destruct method, methods; reflexivity) end.
      rewrite Em. rewrite le2. cbn [exact_len length Nat.eqb nth]. f_equal. lia.
  - unfold common_records. destruct (N.eqb mtu 0), method, methods; reflexivity.
  - unfold common_records. destruct (N.eqb mtu 0), method, methods; reflexivity.
Qed.
End Views.
