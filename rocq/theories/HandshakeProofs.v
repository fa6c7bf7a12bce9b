(** Proofs about handshake packets. *)
From Verif Require Import Base BaseLemmas BufferModel BufferProofs MethodModel HandshakeModel HandshakeSpec.

(** ** Composing *)
Lemma length_enc1 r : length (enc1 r) = RECORD_LEN (length (snd r)).
Proof. unfold enc1, RECORD_LEN. rewrite !app_length, !le_bytes_length. lia. Qed.

Lemma area_app a b : area (a ++ b) = area a ++ area b.
Proof. unfold area. apply flat_map_app. Qed.

Lemma length_packet l : length (packet l) = 4 + length (area l).
Proof. unfold packet. rewrite !app_length, be_bytes_length. reflexivity. Qed.

Lemma be2 v : be_bytes 2 v = [v / 256 mod 256; v mod 256]%N.
Proof. cbn [be_bytes]. rewrite N.div_1_r. reflexivity. Qed.
Lemma le2 v : le_bytes 2 v = [v mod 256; v / 256 mod 256]%N.
Proof. reflexivity. Qed.

Lemma tlv_len_packet l tail : (N.of_nat (length (area l)) < 65536)%N ->
  tlv_len_of (packet l ++ tail) = N.of_nat (length (area l)).
Proof. intro H. unfold tlv_len_of, packet. rewrite be2. cbn [app nth]. lia. Qed.

Lemma hs_add_packet cap l t v :
  4 + length (area l) + RECORD_LEN (length v) <= cap ->
  (N.of_nat (length (area l) + RECORD_LEN (length v)) < 65536)%N ->
  hs_add cap (packet l) t v = Ok (packet (l ++ [(t, v)])).
Proof.
  intros Hc Hn. unfold hs_add. rewrite length_packet.
  destruct (Nat.ltb_spec cap (4 + length (area l) + RECORD_LEN (length v))) as [H|H]; [lia|].
  f_equal. rewrite <- (app_nil_r (packet l)) at 2. rewrite tlv_len_packet by lia.
  unfold packet at 3. rewrite area_app, app_length. cbn [area flat_map]. rewrite app_nil_r, length_enc1. cbn [snd].
  rewrite N.mod_small by lia. unfold packet. rewrite !be2. cbn [app firstn skipn]. unfold enc1. cbn [fst snd].
  replace (N.of_nat (length (area l) + RECORD_LEN (length v)))
    with (N.of_nat (length (area l)) + N.of_nat (RECORD_LEN (length v)))%N by lia.
  reflexivity.
Qed.

Lemma compose_packet cap l l0 :
  4 + length (area (l0 ++ l)) <= cap -> (N.of_nat (length (area (l0 ++ l))) < 65536)%N ->
  compose cap (packet l0) l = Ok (packet (l0 ++ l)).
Proof.
  revert l0; induction l as [|[t v] l IH]; intros l0 Hc Hn; cbn [compose].
  - now rewrite app_nil_r.
  - assert (E : l0 ++ (t, v) :: l = (l0 ++ [(t, v)]) ++ l) by (now rewrite <- app_assoc).
    rewrite E in Hc, Hn |- *.
    assert (L : length (area ((l0 ++ [(t, v)]) ++ l)) = length (area l0) + RECORD_LEN (length v) + length (area l)).
    { rewrite !area_app, !app_length. cbn [area flat_map]. rewrite app_nil_r, length_enc1. reflexivity. }
    rewrite hs_add_packet by lia. cbn [bind]. now apply IH.
Qed.

(** ** Parsing *)
Lemma slice_exact (a b c : bytes) : slice (a ++ b ++ c) (length a) (length b) = b.
Proof.
  rewrite slice_app_r by lia. replace (length a - length a) with 0 by lia.
  rewrite slice_app_l by lia. apply slice_all.
Qed.

Lemma slice_exact' (a b c : bytes) o n : o = length a -> n = length b -> slice (a ++ b ++ c) o n = b.
Proof. intros -> ->. apply slice_exact. Qed.

Definition val (pkt : bytes) (r : option record) : option bytes :=
  match r with Some (o, n) => Some (slice pkt o n) | None => None end.

Fixpoint find_pos (t off : nat) (l : list (nat * bytes)) : option record :=
  match l with
  | [] => None
  | (t', v) :: r =>
      match find_pos t (off + RECORD_LEN (length v)) r with
      | Some x => Some x
      | None => if Nat.eqb t t' then Some (off + 4, length v) else None
      end
  end.

Lemma parse_loop_area fuel l pre post recs :
  Forall (fun r => (N.of_nat (fst r) < 65536)%N /\ (N.of_nat (length (snd r)) < 65536)%N) l ->
  length (area l) < fuel ->
  let pkt := pre ++ area l ++ post in
  exists recs', parse_loop fuel pkt (length pre) (length pre + length (area l)) recs = Ok recs' /\
    (forall t, t < RECORD_MAX ->
       recs' t = match find_pos t (length pre) l with Some x => Some x | None => recs t end) /\
    forall t, val pkt (recs' t) =
      (if Nat.ltb t RECORD_MAX then match find_last t l with Some v => Some v | None => val pkt (recs t) end
       else val pkt (recs t)).
Proof.
  revert fuel pre recs; induction l as [|[t v] l IH]; intros fuel pre recs HF Hfuel pkt.
  - destruct fuel as [|fuel]; [lia|]. cbn [area flat_map length parse_loop find_last].
    destruct (Nat.ltb_spec (length pre + 0) (length pre + 4)); [|lia].
    exists recs. split; [reflexivity|]. split; [reflexivity|].
    intro t. destruct (Nat.ltb t RECORD_MAX); reflexivity.
  - destruct fuel as [|fuel]; [lia|].
    apply Forall_cons_iff in HF. destruct HF as [[Ht Hv] HF]. cbn [fst snd] in Ht, Hv.
    assert (A : area ((t, v) :: l) = le_bytes 2 (N.of_nat t) ++ le_bytes 2 (N.of_nat (length v)) ++ v ++ area l).
    { cbn [area flat_map]. unfold enc1. cbn [fst snd]. now rewrite <- !app_assoc. }
    assert (L : length (area ((t, v) :: l)) = RECORD_LEN (length v) + length (area l)).
    { cbn [area flat_map]. rewrite app_length, length_enc1. reflexivity. }
    unfold RECORD_LEN in L.
    cbn [parse_loop].
    destruct (Nat.ltb_spec (length pre + length (area ((t, v) :: l))) (length pre + 4)); [lia|].
    assert (Lp : length pkt = length pre + length (area ((t, v) :: l)) + length post).
    { unfold pkt. rewrite !app_length. lia. }
    rewrite read_ok by lia. cbn [bind].
    assert (Eh : slice pkt (length pre) 4 = le_bytes 2 (N.of_nat t) ++ le_bytes 2 (N.of_nat (length v))).
    { unfold pkt. rewrite A. rewrite <- !app_assoc.
      rewrite (app_assoc (le_bytes 2 (N.of_nat t))). apply slice_exact'; [reflexivity|].
      now rewrite app_length, !le_bytes_length. }
    rewrite Eh, !le2. cbn [app nth].
    cbv zeta.
    match goal with |- context [set_record recs ?x] => replace x with t by lia end.
    match goal with |- context [set_record recs _ (_, ?x)] => replace x with (length v) by lia end.
    destruct (Nat.ltb_spec (length pre + length (area ((t, v) :: l))) (length pre + RECORD_LEN (length v))); [unfold RECORD_LEN in *; lia|].
    assert (Epkt : pkt = (pre ++ enc1 (t, v)) ++ area l ++ post).
    { unfold pkt. rewrite A. unfold enc1. cbn [fst snd]. now rewrite <- !app_assoc. }
    assert (Lpre : length (pre ++ enc1 (t, v)) = length pre + RECORD_LEN (length v)).
    { rewrite app_length, length_enc1. reflexivity. }
    match goal with |- context [parse_loop fuel pkt _ _ ?r] => remember r as recs1 eqn:Er end.
    specialize (IH fuel (pre ++ enc1 (t, v)) recs1 HF ltac:(lia)). cbv zeta in IH.
    rewrite <- Epkt in IH. destruct IH as [recs' [E1 [E3 E2]]].
    exists recs'. split; [|split].
    + rewrite <- E1, Lpre. f_equal. unfold RECORD_LEN. lia.
    + intros t' Ht'. rewrite E3, Er, Lpre by exact Ht'. cbn [find_pos].
      destruct (find_pos t' (length pre + RECORD_LEN (length v)) l); [reflexivity|].
      destruct (Nat.ltb_spec t RECORD_MAX) as [H2|H2].
      * unfold set_record. destruct (Nat.eqb t' t); reflexivity.
      * destruct (Nat.eqb_spec t' t); [lia|reflexivity].
    + assert (Hval : slice pkt (length pre + 4) (length v) = v).
      { rewrite Epkt. unfold enc1. cbn [fst snd]. rewrite <- !app_assoc.
        rewrite !(app_assoc (le_bytes 2 (N.of_nat t))), (app_assoc pre). apply slice_exact'; [|reflexivity].
        rewrite !app_length, !le_bytes_length. reflexivity. }
      intro t'. rewrite E2, Er. cbn [find_last].
      destruct (Nat.ltb_spec t' RECORD_MAX) as [H1|H1].
      * destruct (find_last t' l) as [x|]; [reflexivity|].
        destruct (Nat.ltb_spec t RECORD_MAX) as [H2|H2].
        -- unfold set_record. destruct (Nat.eqb_spec t' t) as [->|Hne]; [cbn [val]; now rewrite Hval|reflexivity].
        -- destruct (Nat.eqb_spec t' t); [lia|reflexivity].
      * destruct (Nat.ltb_spec t RECORD_MAX) as [H2|H2]; [|reflexivity].
        unfold set_record. destruct (Nat.eqb_spec t' t); [lia|reflexivity].
Qed.

Lemma parse_loop_area' fuel l pre post pkt recs :
  Forall (fun r => (N.of_nat (fst r) < 65536)%N /\ (N.of_nat (length (snd r)) < 65536)%N) l ->
  length (area l) < fuel -> pkt = pre ++ area l ++ post ->
  exists recs', parse_loop fuel pkt (length pre) (length pre + length (area l)) recs = Ok recs' /\
    (forall t, t < RECORD_MAX ->
       recs' t = match find_pos t (length pre) l with Some x => Some x | None => recs t end) /\
    forall t, val pkt (recs' t) =
      (if Nat.ltb t RECORD_MAX then match find_last t l with Some v => Some v | None => val pkt (recs t) end
       else val pkt (recs t)).
Proof. intros HF Hf ->. exact (parse_loop_area fuel l pre post recs HF Hf). Qed.

Lemma parse_packet l post :
  encodable l ->
  exists h, parse_tlvs (packet l ++ post) = Ok (Some h) /\ h_tlv_len h = length (area l) /\
    (forall t, t < RECORD_MAX -> value (packet l ++ post) h t = find_last t l) /\
    (forall t, t < RECORD_MAX -> h_records h t = find_pos t 4 l).
Proof.
  intros [HF Hn]. unfold parse_tlvs. rewrite app_length, length_packet.
  destruct (Nat.ltb_spec (4 + length (area l) + length post) 4); [lia|].
  rewrite read_ok by (rewrite app_length, length_packet; lia). cbn [bind].
  assert (Et : tlv_len_of (slice (packet l ++ post) 0 4) = N.of_nat (length (area l))).
  { rewrite <- (tlv_len_packet l post Hn). unfold tlv_len_of, slice, packet. rewrite be2. reflexivity. }
  rewrite Et, Nat2N.id.
  destruct (Nat.ltb_spec (4 + length (area l) + length post) (4 + length (area l))); [lia|].
  assert (Ep : packet l ++ post = ([1; 0]%N ++ be_bytes 2 (N.of_nat (length (area l)))) ++ area l ++ post).
  { unfold packet. now rewrite <- !app_assoc. }
  destruct (parse_loop_area' (S (length (area l))) l ([1; 0]%N ++ be_bytes 2 (N.of_nat (length (area l)))) post
    (packet l ++ post) (fun _ => None) HF ltac:(lia) Ep) as [recs [E1 [E3 E2]]].
  change (parse_loop (S (length (area l))) (packet l ++ post) 4 (4 + length (area l)) (fun _ => None) = Ok recs) in E1.
  rewrite E1. cbn [bind]. eexists. split; [reflexivity|]. cbn [h_tlv_len h_records]. split; [reflexivity|].
  split.
  - intros t Ht. unfold value. cbn [h_records]. specialize (E2 t). unfold val in E2. rewrite E2.
    destruct (Nat.ltb_spec t RECORD_MAX); [|lia]. destruct (find_last t l); reflexivity.
  - intros t Ht. cbn [h_records].
    rewrite E3 by exact Ht. change (length ([1; 0]%N ++ be_bytes 2 (N.of_nat (length (area l))))) with 4.
    destruct (find_pos t 4 l); reflexivity.
Qed.

Lemma compose_parse cap l p :
  encodable l -> compose cap hs_empty l = Ok p -> p = packet l.
Proof.
  intros [HF Hn] H.
  assert (G : forall l l0 p, (N.of_nat (length (area (l0 ++ l))) < 65536)%N ->
              compose cap (packet l0) l = Ok p -> p = packet (l0 ++ l)).
  { clear. induction l as [|[t v] l IH]; intros l0 p Hn H; cbn [compose] in H.
    - rewrite app_nil_r. congruence.
    - assert (E : l0 ++ (t, v) :: l = (l0 ++ [(t, v)]) ++ l) by (now rewrite <- app_assoc).
      rewrite E in Hn |- *.
      assert (L : length (area ((l0 ++ [(t, v)]) ++ l)) = length (area l0) + RECORD_LEN (length v) + length (area l)).
      { rewrite !area_app, !app_length. cbn [area flat_map]. rewrite app_nil_r, length_enc1. reflexivity. }
      destruct (Nat.ltb cap (length (packet l0) + RECORD_LEN (length v))) eqn:Ec.
      + unfold hs_add in H. rewrite Ec in H. discriminate.
      + apply Nat.ltb_ge in Ec. rewrite length_packet in Ec.
        rewrite hs_add_packet in H by lia. cbn [bind] in H. now apply IH. }
  apply (G l [] p Hn). exact H.
Qed.

Lemma tlv_round_trip cap l p post :
  encodable l -> compose cap hs_empty l = Ok p ->
  length p <= Nat.max 4 cap /\
  tlv_len_of p = N.of_nat (length p - 4) /\
  exists h, parse_tlvs (p ++ post) = Ok (Some h) /\
    forall t, t < RECORD_MAX -> value (p ++ post) h t = find_last t l.
Proof.
  intros He H. pose proof (compose_parse cap l p He H) as E. split; [|split].
  - assert (G : forall l q p, compose cap q l = Ok p -> 4 <= length q -> length q <= Nat.max 4 cap -> length p <= Nat.max 4 cap).
    { clear. induction l as [|[t v] l IH]; intros q p H Hq0 Hq; cbn [compose] in H; [injection H as <-; exact Hq|].
      unfold hs_add in H. destruct (Nat.ltb_spec cap (length q + RECORD_LEN (length v))); [discriminate|].
      cbn [bind] in H. apply IH in H; [exact H| |];
      rewrite !app_length, be_bytes_length, !le_bytes_length, firstn_length, skipn_length;
      unfold RECORD_LEN in *; lia. }
    apply (G l hs_empty p H); cbn [length hs_empty]; lia.
  - rewrite E, <- (app_nil_r (packet l)). rewrite tlv_len_packet by apply He. rewrite app_length, length_packet. cbn. lia.
  - rewrite E. destruct (parse_packet l post He) as [h [H1 [_ [H2 _]]]]. eauto.
Qed.

(** integers *)
Lemma uint_round_trip cap pkt0 ty v p :
  (v < 2 ^ 32)%N -> hs_add_uint cap pkt0 ty v = Ok p ->
  exists n, 1 <= n <= 4 /\ hs_add cap pkt0 ty (le_bytes n v) = Ok p /\
    forall pkt h o, h_records h ty = Some (o, n) -> o + n <= length pkt ->
      slice pkt o n = le_bytes n v -> as_uint pkt h ty = Ok v.
Proof.
  intros Hv H. unfold hs_add_uint in H.
  change (2 ^ 32)%N with 4294967296%N in Hv.
  assert (G : forall n pkt h o, h_records h ty = Some (o, n) -> o + n <= length pkt ->
              slice pkt o n = le_bytes n v -> rec_len h ty = n /\ rec_read pkt h ty n = Ok (le_bytes n v)).
  { intros n pkt h o E L S. unfold rec_len, rec_read. rewrite E, read_ok by exact L. rewrite S. auto. }
  destruct (N.ltb_spec 16777215 v) as [H1|H1].
  - exists 4. split; [lia|]. split; [exact H|]. intros pkt h o E L S. destruct (G 4 _ _ _ E L S) as [G1 G2].
    unfold as_uint. rewrite G1. unfold as_uint32. rewrite G2. cbn [bind le_bytes nth]. f_equal. lia.
  - destruct (N.ltb_spec 65535 v) as [H2|H2].
    + exists 3. split; [lia|]. split; [exact H|]. intros pkt h o E L S. destruct (G 3 _ _ _ E L S) as [G1 G2].
      unfold as_uint. rewrite G1. unfold as_uint24. rewrite G2. cbn [bind le_bytes nth]. f_equal. lia.
    + destruct (N.ltb_spec 255 v) as [H3|H3].
      * exists 2. split; [lia|]. split; [exact H|]. intros pkt h o E L S. destruct (G 2 _ _ _ E L S) as [G1 G2].
        unfold as_uint. rewrite G1. unfold as_uint16. rewrite G2. cbn [bind le_bytes nth]. f_equal. lia.
      * exists 1. split; [lia|]. split; [exact H|]. intros pkt h o E L S. destruct (G 1 _ _ _ E L S) as [G1 G2].
        unfold as_uint. rewrite G1. unfold as_uint8. rewrite G2. cbn [bind le_bytes nth]. f_equal. lia.
Qed.

(** ** Bounds *)
Lemma parse_loop_inside fuel pkt ptr end_ recs :
  4 <= ptr <= end_ -> end_ <= length pkt -> end_ < ptr + fuel ->
  (forall t o n, recs t = Some (o, n) -> t < RECORD_MAX /\ 4 <= o /\ o + n <= end_) ->
  exists recs', parse_loop fuel pkt ptr end_ recs = Ok recs' /\
    forall t o n, recs' t = Some (o, n) -> t < RECORD_MAX /\ 4 <= o /\ o + n <= end_.
Proof.
  revert ptr recs; induction fuel as [|fuel IH]; intros ptr recs Hp He Hf Hr; cbn [parse_loop].
  - lia.
  - destruct (Nat.ltb_spec end_ (ptr + 4)) as [H|H]; [eauto|].
    rewrite read_ok by lia. cbn [bind].
    match goal with |- context [RECORD_LEN ?x] => remember x as len eqn:El end.
    match goal with |- context [set_record recs ?x] => remember x as ty eqn:Et end.
    destruct (Nat.ltb_spec end_ (ptr + RECORD_LEN len)) as [H1|H1]; [eauto|].
    unfold RECORD_LEN in *.
    apply IH; try lia.
    intros t o n. destruct (Nat.ltb_spec ty RECORD_MAX) as [H2|H2]; [|apply Hr].
    unfold set_record. destruct (Nat.eqb_spec t ty) as [->|Hne]; [|apply Hr].
    intro E. injection E as <- <-. lia.
Qed.

Lemma parse_inside pkt :
  exists oh, parse_tlvs pkt = Ok oh /\ forall h, oh = Some h -> records_inside pkt h.
Proof.
  unfold parse_tlvs. destruct (Nat.ltb_spec (length pkt) 4) as [H|H].
  - exists None. split; [reflexivity|discriminate].
  - rewrite read_ok by lia. cbn [bind]. cbv zeta. remember (N.to_nat (tlv_len_of (slice pkt 0 4))) as tl eqn:Et.
    destruct (Nat.ltb_spec (length pkt) (4 + tl)) as [H1|H1].
    + exists None. split; [reflexivity|discriminate].
    + destruct (parse_loop_inside (S tl) pkt 4 (4 + tl) (fun _ => None)) as [recs [E Hr]]; try lia; [discriminate|].
      match type of E with ?x = _ =>
        match goal with |- context [parse_loop ?a ?b ?c ?d ?e] => change (parse_loop a b c d e) with x end end.
      rewrite E. cbn [bind]. eexists. split; [reflexivity|]. intros h Hh. injection Hh as <-.
      split; cbn [h_tlv_len h_records]; [exact H1|exact Hr].
Qed.

Lemma rec_read_ok pkt h t n :
  records_inside pkt h -> rec_present h t = true -> n <= rec_len h t ->
  exists d, rec_read pkt h t n = Ok d /\ length d = n.
Proof.
  intros [H1 H2] Hp Hn. unfold rec_read, rec_len, rec_present in *.
  destruct (h_records h t) as [[o l]|] eqn:E; [|discriminate].
  destruct (H2 t o l E) as [_ [_ H3]]. exists (slice pkt o n).
  rewrite read_ok by lia. split; [reflexivity|]. apply length_slice. lia.
Qed.

Lemma rec_len_present h t : 1 <= rec_len h t -> rec_present h t = true.
Proof. unfold rec_len, rec_present. destruct (h_records h t) as [[o l]|]; [reflexivity|lia]. Qed.

Lemma as_uint8_ok pkt h t :
  records_inside pkt h -> 1 <= rec_len h t -> exists v, as_uint8 pkt h t = Ok v.
Proof.
  intros Hi Hl. unfold as_uint8.
  destruct (rec_read_ok pkt h t 1 Hi (rec_len_present h t Hl) Hl) as [d [-> _]]. cbn [bind]. eauto.
Qed.

Lemma as_uint_ok pkt h t :
  records_inside pkt h -> exists v, as_uint pkt h t = Ok v.
Proof.
  intros Hi. unfold as_uint. destruct (rec_len h t) as [|[|[|[|[|]]]]] eqn:E; try (eexists; reflexivity).
  - apply as_uint8_ok; [exact Hi|lia].
  - unfold as_uint16. destruct (rec_read_ok pkt h t 2 Hi (rec_len_present h t ltac:(lia)) ltac:(lia)) as [d [-> _]]. cbn [bind]. eauto.
  - unfold as_uint24. destruct (rec_read_ok pkt h t 3 Hi (rec_len_present h t ltac:(lia)) ltac:(lia)) as [d [-> _]]. cbn [bind]. eauto.
  - unfold as_uint32. destruct (rec_read_ok pkt h t 4 Hi (rec_len_present h t ltac:(lia)) ltac:(lia)) as [d [-> _]]. cbn [bind]. eauto.
Qed.

(** ** Handling *)
Lemma check_records_ok c pkt h :
  records_inside pkt h ->
  exists r, check_records c pkt h = Ok r /\
    match r with HIgnore => True | HError _ _ h' | HProtocol h' => h' = h end.
Proof.
  intro Hi. unfold check_records.
  match goal with |- context [if ?b then Ok (HError _ (N.of_nat R_FLAGS) _) else _] => destruct b end; [eexists; split; reflexivity|].
  assert (A : exists b, (if rec_present h R_PROTOCOL_NAME then
                    do d <- rec_read pkt h R_PROTOCOL_NAME (rec_len h R_PROTOCOL_NAME);
                    Ok (string_equal (hc_protocol c) d)
                  else Ok true) = Ok b).
  { destruct (rec_present h R_PROTOCOL_NAME) eqn:E; [|eauto].
    destruct (rec_read_ok pkt h R_PROTOCOL_NAME (rec_len h R_PROTOCOL_NAME) Hi E (le_n _)) as [d [-> _]]. cbn [bind]. eauto. }
  destruct A as [b ->]. cbn [bind]. destruct (negb b); [eexists; split; reflexivity|].
  assert (A : exists b, (if rec_present h R_MODE then
                   if negb (Nat.eqb (rec_len h R_MODE) 1) then Ok false
                   else do m <- as_uint8 pkt h R_MODE; Ok (N.eqb m (hc_mode_id c))
                 else Ok true) = Ok b).
  { destruct (rec_present h R_MODE) eqn:E; [|eauto].
    destruct (Nat.eqb_spec (rec_len h R_MODE) 1) as [E1|E1]; cbn [negb]; [|eauto].
    destruct (as_uint8_ok pkt h R_MODE Hi ltac:(lia)) as [m ->]. cbn [bind]. eauto. }
  destruct A as [b' ->]. cbn [bind]. destruct (negb b'); [eexists; split; reflexivity|].
  destruct (1 <? h_type h)%N; [|eexists; split; reflexivity].
  destruct (Nat.eqb_spec (rec_len h R_REPLY_CODE) 1) as [E1|E1]; cbn [negb]; [|eexists; split; reflexivity].
  destruct (as_uint8_ok pkt h R_REPLY_CODE Hi ltac:(lia)) as [m ->]. cbn [bind].
  destruct (N.eqb m REPLY_SUCCESS); cbn [negb]; [eexists; split; reflexivity|].
  assert (A : exists v, (if (Nat.eqb (rec_len h R_ERROR_DETAIL) 1 || Nat.eqb (rec_len h R_ERROR_DETAIL) 2)%bool
                 then as_uint pkt h R_ERROR_DETAIL else Ok 0%N) = Ok v).
  { destruct (Nat.eqb (rec_len h R_ERROR_DETAIL) 1 || Nat.eqb (rec_len h R_ERROR_DETAIL) 2)%bool; [|eauto].
    now apply as_uint_ok. }
  destruct A as [v ->]. cbn [bind]. eexists; split; reflexivity.
Qed.

Lemma handle_ok c pkt ctl :
  exists r, handshake_handle c pkt ctl = Ok r /\
    match r with HIgnore => True | HError _ _ h | HProtocol h => records_inside pkt h end.
Proof.
  unfold handshake_handle. destruct (parse_inside pkt) as [oh [-> Hin]]. cbn [bind].
  destruct oh as [h|]; [|eexists; split; [reflexivity|exact I]].
  specialize (Hin h eq_refl).
  destruct (Nat.eqb_spec (rec_len h R_TYPE) 1) as [E|E]; cbn [negb]; [|eexists; split; [reflexivity|exact I]].
  destruct (as_uint8_ok pkt h R_TYPE Hin ltac:(lia)) as [ty ->]. cbn [bind].
  assert (A : exists fl, (if Nat.leb 1 (rec_len h R_FLAGS) then as_uint8 pkt h R_FLAGS else Ok 0%N) = Ok fl).
  { destruct (Nat.leb_spec 1 (rec_len h R_FLAGS)) as [L|L]; [now apply as_uint8_ok|eauto]. }
  destruct A as [fl ->]. cbn [bind].
  match goal with |- context [check_records c pkt ?x] => remember x as h1 eqn:Eh end.
  match goal with |- context [if ?b then Ok HIgnore else _] => destruct b end; [eexists; split; [reflexivity|exact I]|].
  assert (Hin1 : records_inside pkt h1).
  { rewrite Eh. destruct Hin as [H1 H2]. split; [exact H1|exact H2]. }
  destruct (check_records_ok c pkt h1 Hin1) as [r [-> Hr]]. cbn [bind].
  destruct r as [|code d h2|h2]; [eexists; split; [reflexivity|exact I]| |].
  - eexists; split; [reflexivity|]. now rewrite Hr.
  - subst h2.
    assert (A : exists v, (if (N.ltb 1 (h_type h1) && rec_present h1 R_VERSION_NAME)%bool
                   then rec_read pkt h1 R_VERSION_NAME (rec_len h1 R_VERSION_NAME) else Ok []) = Ok v).
    { destruct (rec_present h1 R_VERSION_NAME) eqn:E1; [|rewrite andb_false_r; eauto].
      destruct (rec_read_ok pkt h1 R_VERSION_NAME (rec_len h1 R_VERSION_NAME) Hin1 E1 (le_n _)) as [d [Ed _]].
      destruct (N.ltb 1 (h_type h1)); cbn [andb]; [rewrite Ed|]; eauto. }
    destruct A as [v ->]. cbn [bind]. eexists; split; [reflexivity|exact Hin1].
Qed.

Lemma has_field_inside pkt h t n :
  records_inside pkt h -> has_field h t n = true -> 1 <= n -> exists d, rec_read pkt h t n = Ok d /\ length d = n.
Proof.
  intros Hi Hf Hn. unfold has_field in Hf. apply Nat.eqb_eq in Hf.
  apply rec_read_ok; [exact Hi| |lia]. apply rec_len_present. lia.
Qed.
