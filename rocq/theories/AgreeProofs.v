(** Packets with the same authenticated content have the same records. *)
From Verif Require Import Base BaseLemmas BufferModel BufferProofs MethodModel HandshakeModel HandshakeSpec HandshakeProofs.
From Coq Require Import Lia.

Lemma set_record_cases : forall recs ty r t x, set_record recs ty r t = Some x -> (t = ty /\ x = r) \/ (t <> ty /\ recs t = Some x).
Proof.
  intros recs ty r t x H. unfold set_record in H. destruct (Nat.eqb_spec t ty) as [E | E]; [left; split; congruence | right; split; [exact E | exact H]].
Qed.

(** Where the records are that the loop finds *)
Lemma loop_where : forall fuel pkt ptr end_ recs recs',
  end_ <= length pkt -> parse_loop fuel pkt ptr end_ recs = Ok recs' ->
  forall t o n, recs' t = Some (o, n) -> recs t = Some (o, n) \/ (ptr + 4 <= o /\ o + n <= end_).
Proof.
  induction fuel as [|fuel IH]; intros pkt ptr end_ recs recs' Hl H t o n Ht; cbn [parse_loop] in H; [discriminate|].
  destruct (Nat.ltb_spec end_ (ptr + 4)) as [E1 | E1]; [injection H as <-; left; exact Ht|].
  rewrite read_ok in H by lia. cbn [bind] in H.
  set (len := N.to_nat _) in H. set (ty := N.to_nat _) in H. unfold RECORD_LEN in H.
  destruct (Nat.ltb_spec end_ (ptr + (len + 4))) as [E2 | E2]; [injection H as <-; left; exact Ht|].
  destruct (IH _ _ _ _ _ Hl H t o n Ht) as [G | G]; [|right; lia].
  destruct (Nat.ltb ty RECORD_MAX); [|left; exact G].
  apply set_record_cases in G. destruct G as [(_ & G) | (_ & G)]; [|left; exact G].
  injection G as -> ->. right. lia.
Qed.

Definition apart (recs : nat -> option record) : Prop :=
  forall t u o n o' n', t <> u -> recs t = Some (o, n) -> recs u = Some (o', n') -> o + n <= o' \/ o' + n' <= o.
Definition below (recs : nat -> option record) (ptr : nat) : Prop := forall t o n, recs t = Some (o, n) -> o + n <= ptr.

Lemma below_le : forall recs p q, p <= q -> below recs p -> below recs q.
Proof. intros recs p q H B t o n E. specialize (B t o n E). lia. Qed.

Lemma below_set : forall recs ty p len (b : bool), below recs p -> below (if b then set_record recs ty (p + 4, len) else recs) (p + (len + 4)).
Proof.
  intros recs ty p len b B. assert (B' : below recs (p + (len + 4))) by (apply (below_le recs p); [lia | exact B]).
  destruct b; [|exact B']. intros t o n E. apply set_record_cases in E.
  destruct E as [(_ & E) | (_ & E)]; [injection E as -> ->; lia | exact (B' t o n E)].
Qed.

Lemma loop_apart : forall fuel pkt ptr end_ recs recs',
  end_ <= length pkt -> parse_loop fuel pkt ptr end_ recs = Ok recs' -> below recs ptr -> apart recs -> apart recs'.
Proof.
  induction fuel as [|fuel IH]; intros pkt ptr end_ recs recs' Hl H B A; cbn [parse_loop] in H; [discriminate|].
  destruct (Nat.ltb_spec end_ (ptr + 4)) as [E1 | E1]; [injection H as <-; exact A|].
  rewrite read_ok in H by lia. cbn [bind] in H.
  set (len := N.to_nat _) in H. set (ty := N.to_nat _) in H. unfold RECORD_LEN in H.
  destruct (Nat.ltb_spec end_ (ptr + (len + 4))) as [E2 | E2]; [injection H as <-; exact A|].
  refine (IH _ _ _ _ _ Hl H _ _); [apply below_set; exact B|].
  destruct (Nat.ltb ty RECORD_MAX); [|exact A].
  intros t u o n o' n' Htu E E'. apply set_record_cases in E. apply set_record_cases in E'.
  destruct E as [(T & E) | (T & E)]; destruct E' as [(U & E') | (U & E')].
  - congruence.
  - injection E as -> ->. specialize (B _ _ _ E'). lia.
  - injection E' as -> ->. specialize (B _ _ _ E). lia.
  - exact (A t u o n o' n' Htu E E').
Qed.

(** Overwriting the value of a record does not move any record *)
Lemma loop_zero : forall fuel pkt ptr end_ recs recs' t o n z,
  end_ <= length pkt -> parse_loop fuel pkt ptr end_ recs = Ok recs' -> below recs ptr ->
  recs' t = Some (o, n) -> length z <= n -> o + n <= length pkt ->
  parse_loop fuel (overwrite pkt o z) ptr end_ recs = Ok recs'.
Proof.
  induction fuel as [|fuel IH]; intros pkt ptr end_ recs recs' t o n z Hl H B Ht Hz Ho; [discriminate|].
  assert (W := loop_where _ _ _ _ _ _ Hl H t o n Ht).
  cbn [parse_loop] in H |- *.
  destruct (Nat.ltb_spec end_ (ptr + 4)) as [E1 | E1]; [exact H|].
  rewrite read_ok in H by lia. rewrite read_ok by (rewrite length_overwrite; lia).
  assert (Es : slice (overwrite pkt o z) ptr 4 = slice pkt ptr 4).
  { destruct W as [W | W]; [apply slice_overwrite_after; [lia|]; specialize (B _ _ _ W); lia | apply slice_overwrite_before; lia]. }
  rewrite Es. cbn [bind] in H |- *.
  set (len := N.to_nat _) in H |- *. set (ty := N.to_nat _) in H |- *. unfold RECORD_LEN in H |- *.
  destruct (Nat.ltb_spec end_ (ptr + (len + 4))) as [E2 | E2]; [exact H|].
  refine (IH _ _ _ _ _ t o n z Hl H _ Ht Hz Ho). apply below_set; exact B.
Qed.

(** Only the bytes of the record area matter *)
Lemma loop_ext : forall fuel pkt pkt' ptr len recs,
  4 + len <= length pkt -> 4 + len <= length pkt' -> slice pkt 4 len = slice pkt' 4 len -> 4 <= ptr ->
  parse_loop fuel pkt ptr (4 + len) recs = parse_loop fuel pkt' ptr (4 + len) recs.
Proof.
  induction fuel as [|fuel IH]; intros pkt pkt' ptr len recs L L' Es Hp; [reflexivity|].
  cbn [parse_loop]. destruct (Nat.ltb_spec (4 + len) (ptr + 4)) as [E1 | E1]; [reflexivity|].
  rewrite !read_ok by lia.
  assert (E4 : slice pkt ptr 4 = slice pkt' ptr 4).
  { replace ptr with (4 + (ptr - 4)) by lia. rewrite <- (slice_slice pkt 4 len), <- (slice_slice pkt' 4 len) by lia. now rewrite Es. }
  rewrite E4. cbn [bind]. set (n := N.to_nat _). set (ty := N.to_nat _). unfold RECORD_LEN.
  destruct (Nat.ltb (4 + len) (ptr + (n + 4))); [reflexivity|]. apply IH; [exact L | exact L' | exact Es | lia].
Qed.

Lemma parse_unfold : forall pkt h, parse_tlvs pkt = Ok (Some h) ->
  4 + h_tlv_len h <= length pkt /\ parse_loop (S (h_tlv_len h)) pkt 4 (4 + h_tlv_len h) (fun _ => None) = Ok (h_records h).
Proof.
  intros pkt h H. unfold parse_tlvs in H.
  destruct (Nat.ltb_spec (length pkt) 4) as [E | E]; [discriminate|]. rewrite read_ok in H by lia. cbn [bind] in H.
  set (len := N.to_nat _) in H. destruct (Nat.ltb_spec (length pkt) (4 + len)) as [E' | E']; [discriminate|].
  destruct (parse_loop (S len) pkt 4 (4 + len) (fun _ => None)) as [recs| | |] eqn:El; try discriminate.
  cbn [bind] in H. injection H as <-. cbn [h_tlv_len h_records]. split; [lia | exact El].
Qed.

Lemma zero_mac_length : length zero_mac = 32.
Proof. reflexivity. Qed.

(** Zeroing the code: the same records in the same places, the others with the same values *)
Lemma zeroed : forall pkt h x,
  parse_tlvs pkt = Ok (Some h) -> mac_input pkt h = Some x ->
  (exists tag, value pkt h R_TLV_MAC = Some tag /\ length tag = 32) ->
  exists p0, length p0 = length pkt /\ slice p0 4 (h_tlv_len h) = x /\
    parse_loop (S (h_tlv_len h)) p0 4 (4 + h_tlv_len h) (fun _ => None) = Ok (h_records h) /\
    (forall t o n, t <> R_TLV_MAC -> h_records h t = Some (o, n) -> slice p0 o n = slice pkt o n).
Proof.
  intros pkt h x Hp Hx (tag & Hv & Ht). destruct (parse_unfold _ _ Hp) as (L & El).
  unfold mac_input in Hx. unfold value in Hv. destruct (h_records h R_TLV_MAC) as [[o n]|] eqn:Er; [|discriminate].
  assert (B0 : below (fun _ => None) 4) by (intros t' o' n' E; discriminate).
  assert (A0 : apart (fun _ => None)) by (intros t' u' o' n' o1 n1 _ E; discriminate).
  destruct (loop_where _ _ _ _ _ _ L El R_TLV_MAC o n Er) as [W | W]; [discriminate|].
  assert (En : n = 32). { injection Hv as <-. rewrite length_slice in Ht by lia. exact Ht. }
  exists (overwrite pkt o zero_mac). injection Hx as <-.
  split; [apply length_overwrite; rewrite zero_mac_length; lia|]. split; [reflexivity|]. split.
  - refine (loop_zero _ _ _ _ _ _ R_TLV_MAC o n zero_mac L El B0 Er _ _); [rewrite zero_mac_length; lia | lia].
  - intros t o' n' Hne Et. assert (D := loop_apart _ _ _ _ _ _ L El B0 A0 t R_TLV_MAC o' n' o n Hne Et Er).
    destruct D as [D | D]; [apply slice_overwrite_before; lia | apply slice_overwrite_after; [lia | rewrite zero_mac_length; lia]].
Qed.

Lemma binding : forall p q h k x,
  parse_tlvs p = Ok (Some h) -> parse_tlvs q = Ok (Some k) ->
  mac_input p h = Some x -> mac_input q k = Some x ->
  (exists tag, value p h R_TLV_MAC = Some tag /\ length tag = 32) ->
  (exists tag, value q k R_TLV_MAC = Some tag /\ length tag = 32) ->
  forall t, t <> R_TLV_MAC -> value p h t = value q k t.
Proof.
  intros p q h k x Hp Hq Ip Iq Tp Tq t Hne.
  destruct (zeroed _ _ _ Hp Ip Tp) as (p0 & Lp & Sp & Pp & Vp). destruct (zeroed _ _ _ Hq Iq Tq) as (q0 & Lq & Sq & Pq & Vq).
  destruct (parse_unfold _ _ Hp) as (L & _). destruct (parse_unfold _ _ Hq) as (L' & _).
  assert (El : h_tlv_len h = h_tlv_len k).
  { rewrite <- (length_slice p0 4 (h_tlv_len h)) by lia. rewrite <- (length_slice q0 4 (h_tlv_len k)) by lia. congruence. }
  assert (Er : h_records h = h_records k).
  { rewrite <- El in Pq. rewrite (loop_ext _ p0 q0) in Pp by (try lia; congruence). congruence. }
  unfold value. rewrite <- Er. destruct (h_records h t) as [[o n]|] eqn:Et; [|reflexivity]. f_equal.
  rewrite <- (Vp t o n Hne Et). rewrite <- (Vq t o n Hne) by (rewrite <- Er; exact Et).
  destruct (loop_where _ _ _ _ _ _ (eq_ind_r (fun z => 4 + h_tlv_len h <= z) L Lp) Pp t o n Et) as [W | W]; [discriminate|].
  replace o with (4 + (o - 4)) by lia.
  rewrite <- (slice_slice p0 4 (h_tlv_len h)) by lia. rewrite <- (slice_slice q0 4 (h_tlv_len h)) by lia.
  rewrite Sp. rewrite El, Sq. reflexivity.
Qed.
