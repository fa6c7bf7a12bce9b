(** * Netlink messages: reading well-formed replies *)

From Coq Require Import List NArith ZArith Bool Lia ZifyBool ZifyNat ZifyN.
From Verif Require Import NlModel NlSpec NlProofs.
Import ListNotations.
Import NlSpec.
Local Open Scope Z_scope.
Ltac Zify.zify_post_hook ::= Z.to_euclidean_division_equations.

Lemma int_small : forall z, - 2 ^ 31 <= z < 2 ^ 31 -> int z = z.
Proof. intros. unfold int. rewrite Z.mod_small by lia. lia. Qed.
Lemma int_word : forall c, - 2 ^ 31 <= c < 2 ^ 31 -> int (c mod 2 ^ 32) = c.
Proof.
  intros c H. unfold int. replace ((c mod 2 ^ 32 + 2 ^ 31) mod 2 ^ 32) with (c + 2 ^ 31); [lia |].
  rewrite Zplus_mod_idemp_l. symmetry. apply Z.mod_small. lia.
Qed.
Lemma align32_small : forall n, 0 <= n < 2 ^ 31 -> align32 n = align n.
Proof. intros. unfold align32, align, u32. rewrite (Z.mod_small (n + 3)) by lia. reflexivity. Qed.

(** ** One attribute *)

(** Reading a number that stands after [a] *)
Lemma read_num_at : forall le k b a z c p,
  b = a ++ num le k z ++ c -> p = size a -> 0 <= z < 256 ^ Z.of_nat k -> read_num le (Z.of_nat k) b p = Done z.
Proof. intros. subst b. rewrite read_num_mid by assumption. f_equal. now apply Z.mod_small. Qed.

Lemma attr_read_len : forall le a t d c, len d + 4 < 2 ^ 16 ->
  read_num le 2 (a ++ attr_bytes le (t, d) ++ c) (size a) = Done (4 + size d).
Proof.
  intros. change 2 with (Z.of_nat 2). apply read_num_at with (a := a) (z := 4 + len d) (c := num le 2 t ++ d ++ pad d ++ c).
  - unfold attr_bytes. cbn [fst snd]. now rewrite <- !app_assoc.
  - reflexivity.
  - change (256 ^ Z.of_nat 2) with (2 ^ 16). unfold len, size in *. lia.
Qed.
Lemma attr_read_type : forall le a t d c, 0 <= t < 2 ^ 16 ->
  read_num le 2 (a ++ attr_bytes le (t, d) ++ c) (size a + 2) = Done t.
Proof.
  intros. change 2 with (Z.of_nat 2) at 1. apply read_num_at with (a := a ++ num le 2 (4 + len d)) (c := d ++ pad d ++ c).
  - unfold attr_bytes. cbn [fst snd]. now rewrite <- !app_assoc.
  - rewrite size_app, num_size. reflexivity.
  - exact H.
Qed.
Lemma attr_read_data : forall le a t d c,
  read (a ++ attr_bytes le (t, d) ++ c) (size a + 4) (size d) = Done d.
Proof.
  intros. unfold attr_bytes. cbn [fst snd].
  replace (a ++ (num le 2 (4 + len d) ++ num le 2 t ++ d ++ pad d) ++ c)
    with ((a ++ num le 2 (4 + len d) ++ num le 2 t) ++ d ++ (pad d ++ c)) by (now rewrite <- !app_assoc).
  apply read_mid; [| reflexivity]. rewrite !size_app, !num_size. lia.
Qed.

Definition cb_ok {D : Type} (le : bool) (r : request) (cb : attr_cb D) (rep : option (list byte) -> D) : Prop :=
  forall a t d c v e, attr_wf (t, d) ->
    cb (a ++ attr_bytes le (t, d) ++ c) (size a) e (rep v) =
      match meaning r (t, d) with
      | Skip => Done (CB_OK, e, rep v)
      | Set_ x => Done (CB_OK, e, rep (Some x))
      | Fail er => Done (CB_ERROR, er, rep v)
      end.

Definition family_rep (le : bool) (v : option (list byte)) : Z :=
  match v with Some x => u16_value le x | None => -1 end.
Definition name_rep (name : list byte) (v : option (list byte)) : list byte :=
  match v with Some x => x ++ repeat 0%N (16 - length x) | None => 0%N :: tl name end.

Lemma getfamily_cb_ok : forall le, cb_ok le Family (getfamily_cb le) (family_rep le).
Proof.
  intros le a t d c v e [Ht [Hd Hb]]. cbn [fst snd] in *. unfold getfamily_cb, attr_get_type.
  rewrite attr_read_type by assumption. cbn [bind]. unfold meaning. cbn [fst snd].
  destruct (t mod 2 ^ 14 =? 1); [| reflexivity].
  unfold validate_u16, attr_get_payload_len. rewrite attr_read_len by assumption. cbn [bind].
  unfold ATTR_HDRLEN. pose proof (size_nonneg d) as Hs. change (len d) with (size d) in Hd.
  replace ((4 + size d - 4) mod 2 ^ 16) with (size d) by (rewrite Z.mod_small; lia).
  unfold ERANGE.
  destruct (Nat.eqb_spec (length d) 2) as [E2 | E2].
  - replace (size d <? 2) with false by (unfold size; lia). replace (size d >? 2) with false by (unfold size; lia).
    cbn [bind]. unfold read_num.
    replace 2 with (size d) by (unfold size; lia). rewrite attr_read_data. cbn [bind]. do 2 f_equal.
    destruct d as [| x [| y [|]]]; try discriminate E2. cbn [family_rep u16_value].
    unfold host. destruct le; cbn [rev app le_value]; lia.
  - destruct (Z.ltb_spec (size d) 2); [reflexivity |].
    replace (size d >? 2) with true by (unfold size in *; lia). reflexivity.
Qed.

Lemma read_one : forall a x c p, p = size a -> read (a ++ x :: c) p 1 = Done [x].
Proof. intros. change (a ++ x :: c) with (a ++ [x] ++ c). now apply read_mid. Qed.

Lemma strncpy_string : forall n d a c p,
  p = size a -> In 0%N d ->
  strncpy n (a ++ d ++ c) p = Done (firstn n (to_zero d) ++ repeat 0%N (n - length (to_zero d))).
Proof.
  induction n as [| n IH]; intros d a c p Hp Hin; [reflexivity |].
  destruct d as [| x d]; [destruct Hin |]. cbn [strncpy]. cbn [app]. rewrite read_one by assumption. cbn [bind hd to_zero].
  destruct (N.eqb_spec x 0) as [E | E].
  - cbn [firstn app length]. now rewrite Nat.sub_0_r.
  - change (a ++ x :: d ++ c) with (a ++ [x] ++ d ++ c). rewrite app_assoc, IH.
    + reflexivity.
    + subst p. rewrite size_app. reflexivity.
    + destruct Hin as [Hx | Hin]; [congruence | exact Hin].
Qed.

Lemma get_ifname_cb_ok : forall le id name, cb_ok le (SessionGet id) (get_ifname_cb le) (name_rep name).
Proof.
  intros le id name a t d c v e [Ht [Hd Hb]]. cbn [fst snd] in *. unfold get_ifname_cb, attr_get_type.
  rewrite attr_read_type by assumption. cbn [bind]. unfold meaning. cbn [fst snd].
  destruct (t mod 2 ^ 14 =? 8); [| reflexivity].
  unfold validate_nul_string, attr_get_payload_len. rewrite attr_read_len by assumption. cbn [bind].
  unfold ATTR_HDRLEN. pose proof (size_nonneg d) as Hs. change (len d) with (size d) in Hd.
  replace ((4 + size d - 4) mod 2 ^ 16) with (size d) by (rewrite Z.mod_small; lia).
  destruct (rev d) as [| x d'] eqn:Er.
  - apply (f_equal (@rev N)) in Er. rewrite rev_involutive in Er. subst d. reflexivity.
  - assert (Ed : d = rev d' ++ [x]) by (apply (f_equal (@rev N)) in Er; rewrite rev_involutive in Er; exact Er).
    assert (Hz : size d = size (rev d') + 1) by (rewrite Ed, size_app; reflexivity).
    replace (size d =? 0) with false by (pose proof (size_nonneg (rev d')); lia).
    unfold read_num.
    assert (R1 : read (a ++ attr_bytes le (t, d) ++ c) (size a + 4 + (size d - 1)) 1 = Done [x]).
    { unfold attr_bytes. cbn [fst snd].
      replace (a ++ (num le 2 (4 + len d) ++ num le 2 t ++ d ++ pad d) ++ c)
        with ((a ++ num le 2 (4 + len d) ++ num le 2 t ++ rev d') ++ [x] ++ (pad d ++ c)).
      - apply read_mid; [| reflexivity]. rewrite !size_app, !num_size. lia.
      - generalize (len d) (pad d). intros u w. rewrite Ed. now rewrite <- !app_assoc. }
    rewrite R1. cbn [bind]. replace (le_value (host le [x])) with (Z.of_N x) by (destruct le; cbn; lia).
    destruct (N.eqb_spec x 0) as [E | E].
    + replace (Z.of_N x =? 0) with true by lia. cbn [bind].
      unfold attr_bytes. cbn [fst snd].
      replace (a ++ (num le 2 (4 + len d) ++ num le 2 t ++ d ++ pad d) ++ c)
        with ((a ++ num le 2 (4 + len d) ++ num le 2 t) ++ d ++ (pad d ++ c)) by (now rewrite <- !app_assoc).
      rewrite strncpy_string; cycle 1.
      { rewrite !size_app, !num_size. lia. }
      { rewrite Ed. apply in_or_app. right. left. exact E. }
      cbn [bind name_rep]. do 2 f_equal. rewrite <- app_assoc. f_equal.
      rewrite firstn_length. change [0%N] with (repeat 0%N 1). rewrite <- repeat_app. f_equal. lia.
    + replace (Z.of_N x =? 0) with false by lia. reflexivity.
Qed.

(** ** The attributes of a message *)

Lemma attr_loop_ok : forall (D : Type) le r (cb : attr_cb D) rep, cb_ok le r cb rep ->
  forall l fuel a c tail e v,
  Forall attr_wf l -> (length l < fuel)%nat -> tail = size a + attrs_size l -> attrs_size l < 2 ^ 31 ->
  attr_loop le cb (a ++ concat (map (attr_bytes le) l) ++ c) tail fuel (size a) CB_OK e (rep v) =
    match attrs_verdict r l v with
    | Open v' => Done (CB_OK, e, rep v')
    | Success v' => Done (CB_STOP, e, rep v')
    | Failure er v' => Done (CB_ERROR, er, rep v')
    end.
Proof.
  intros D le r cb rep Hcb l. induction l as [| [t d] l IH]; intros fuel a c tail e v F Hf Ht Hl;
    (destruct fuel as [| fuel]; [cbn in Hf; lia |]); cbn [attr_loop attrs_verdict attrs_size map concat snd] in *.
  - subst tail. replace (size a + 0 - size a) with 0 by lia. reflexivity.
  - apply Forall_cons_iff in F. destruct F as [F1 F2]. pose proof F1 as [Ht' [Hd Hb]]. cbn [fst snd] in *.
    pose proof (attrs_size_nonneg l) as Hp. pose proof (size_nonneg d) as Hs.
    assert (Ha : 4 + size d <= align (4 + size d)) by (unfold align; lia).
    rewrite int_small by lia. unfold attr_ok.
    replace (tail - size a <? 4) with false by lia.
    rewrite <- !app_assoc. rewrite attr_read_len by assumption. cbn [bind].
    replace ((4 <=? 4 + size d) && (4 + size d <=? tail - size a)) with true by lia. cbn [negb].
    rewrite Hcb by assumption.
    destruct (meaning r (t, d)) as [| x | er]; cbn [bind].
    + change (CB_OK <=? CB_STOP) with false. cbv iota.
      replace (align (4 + size d)) with (size (attr_bytes le (t, d))) by (now rewrite attr_bytes_size).
      rewrite app_assoc, <- size_app.
      apply IH; [assumption | cbn in Hf; lia | rewrite size_app, attr_bytes_size; cbn [snd]; lia | lia].
    + change (CB_OK <=? CB_STOP) with false. cbv iota.
      replace (align (4 + size d)) with (size (attr_bytes le (t, d))) by (now rewrite attr_bytes_size).
      rewrite app_assoc, <- size_app.
      apply IH; [assumption | cbn in Hf; lia | rewrite size_app, attr_bytes_size; cbn [snd]; lia | lia].
    + reflexivity.
Qed.

(** ** One message *)

Section Msg.
  Variables (le : bool) (type flags sq pid : Z) (bd a c : list byte).
  Let b := a ++ msg_bytes le type flags sq pid bd ++ c.
  Hypothesis (Ht : 0 <= type < 2 ^ 16) (Hfl : 0 <= flags < 2 ^ 16) (Hsq : 0 <= sq < 2 ^ 32) (Hpid : 0 <= pid < 2 ^ 32).
  Hypothesis (Hlen : 16 + size bd < 2 ^ 31).

  Lemma msg_len : get_len le b (size a) = Done (16 + size bd).
  Proof.
    unfold get_len. change 4 with (Z.of_nat 4). apply read_num_at with (a := a) (c := num le 2 type ++ num le 2 flags ++ num le 4 sq ++ num le 4 pid ++ bd ++ c); [| reflexivity |].
    - unfold b, msg_bytes. rewrite <- !app_assoc. reflexivity.
    - change (256 ^ Z.of_nat 4) with (2 ^ 32). pose proof (size_nonneg bd). lia.
  Qed.
  Lemma msg_type : get_msg_type le b (size a) = Done type.
  Proof.
    unfold get_msg_type. change 2 with (Z.of_nat 2).
    apply read_num_at with (a := a ++ num le 4 (16 + len bd)) (c := num le 2 flags ++ num le 4 sq ++ num le 4 pid ++ bd ++ c); [| now rewrite size_app, num_size | exact Ht].
    unfold b, msg_bytes. rewrite <- !app_assoc. reflexivity.
  Qed.
  Lemma msg_flags : get_flags le b (size a) = Done flags.
  Proof.
    unfold get_flags. change 2 with (Z.of_nat 2).
    apply read_num_at with (a := a ++ num le 4 (16 + len bd) ++ num le 2 type) (c := num le 4 sq ++ num le 4 pid ++ bd ++ c); [| rewrite !size_app, !num_size; lia | exact Hfl].
    unfold b, msg_bytes. rewrite <- !app_assoc. reflexivity.
  Qed.
  Lemma msg_seq : get_seq le b (size a) = Done sq.
  Proof.
    unfold get_seq. change 4 with (Z.of_nat 4).
    apply read_num_at with (a := a ++ num le 4 (16 + len bd) ++ num le 2 type ++ num le 2 flags) (c := num le 4 pid ++ bd ++ c);
      [| rewrite !size_app, !num_size; lia | exact Hsq].
    unfold b, msg_bytes. rewrite <- !app_assoc. reflexivity.
  Qed.
  Lemma msg_pid : get_pid le b (size a) = Done pid.
  Proof.
    unfold get_pid. change 4 with (Z.of_nat 4).
    apply read_num_at with (a := a ++ num le 4 (16 + len bd) ++ num le 2 type ++ num le 2 flags ++ num le 4 sq) (c := bd ++ c);
      [| rewrite !size_app, !num_size; lia | exact Hpid].
    unfold b, msg_bytes. rewrite <- !app_assoc. reflexivity.
  Qed.
End Msg.

(** What [__mnl_cb_run] knows after a verdict *)
Definition agrees {D : Type} (rep : option (list byte) -> D) (e : Z) (x : verdict) (o : Z * Z * D) : Prop :=
  match x with
  | Open v => o = (CB_OK, e, rep v)
  | Success v => exists e', o = (CB_STOP, e', rep v)
  | Failure er v => o = (CB_ERROR, er, rep v)
  end.
Definition is_open (x : verdict) : bool := match x with Open _ => true | _ => false end.

Definition cb_good {D : Type} (le : bool) (r : request) (cb : option (attr_cb D)) (rep : option (list byte) -> D) : Prop :=
  match cb with Some cb => cb_ok le r cb rep | None => forall a, meaning r a = Skip end.

Lemma attrs_skip : forall r, (forall a, meaning r a = Skip) -> forall l v, attrs_verdict r l v = Open v.
Proof. intros r H l v. induction l as [| a l IH]; cbn [attrs_verdict]; [reflexivity |]. now rewrite H. Qed.

Lemma seq_ok_mine : forall m seq, seq_ok (r_seq m) seq = mine seq m.
Proof.
  intros. unfold seq_ok, mine. destruct (r_seq m =? 0); cbn; [reflexivity |]. destruct (seq =? 0); reflexivity.
Qed.

Lemma reply_type : forall m, body_wf (r_body m) -> 0 <= body_type (r_body m) < 2 ^ 16.
Proof. intros m. destruct (r_body m); cbn; intros; try lia. Qed.

Lemma attrs_length : forall l, Z.of_nat (length l) <= attrs_size l.
Proof.
  induction l as [| a l IH]; cbn [length attrs_size]; [lia |]. pose proof (size_nonneg (snd a)). unfold align. lia.
Qed.

Lemma one_message_ok : forall (D : Type) le r seq (cb : option (attr_cb D)) rep, cb_good le r cb rep ->
  forall m a c fuel e v, reply_wf m -> size (reply_bytes le m) < 2 ^ 31 -> size (reply_bytes le m) <= Z.of_nat fuel ->
  exists o,
    one_message le cb (a ++ reply_bytes le m ++ c) fuel seq 0 4 (size a) CB_OK e (rep v)
      = Done (o, is_open (reply_verdict r seq m v)) /\
    agrees rep e (reply_verdict r seq m v) o.
Proof.
  intros D le r seq cb rep Hcb m a c fuel e v [Hfl [Hsq [Hpid Hb]]] Hlen Hfuel.
  pose proof (reply_type m Hb) as Ht.
  assert (Hbl : 16 + size (body_bytes le (r_body m)) = size (reply_bytes le m)).
  { unfold reply_bytes, msg_bytes. rewrite !size_app, !num_size. lia. }
  unfold one_message, reply_bytes. rewrite msg_pid by assumption. cbn [bind].
  replace (seq_ok (r_pid m) 0) with true by (unfold seq_ok; destruct (r_pid m =? 0); reflexivity). cbn [negb].
  rewrite msg_seq by assumption. cbn [bind]. rewrite seq_ok_mine.
  unfold reply_verdict. destruct (mine seq m) eqn:Em; cbn [negb]; [| eexists; split; reflexivity].
  rewrite msg_flags by assumption. cbn [bind].
  destruct (Z.testbit (r_flags m) 4) eqn:Ef; [eexists; split; reflexivity |].
  rewrite msg_type by assumption. cbn [bind].
  destruct (r_body m) as [t hdr attrs | code rest | rest | t rest] eqn:Eb; cbn [body_type body_wf] in *.
  - destruct Hb as [Ht' [Hh [Hhb Ha]]]. replace (16 <=? t) with true by lia.
    destruct cb as [cb |]; cbn [cb_good] in Hcb.
    + unfold attr_parse. rewrite msg_len by lia. cbn [bind].
      rewrite align32_small by (pose proof (size_nonneg (body_bytes le (Attributes t hdr attrs))); lia).
      change (align 4) with 4. unfold HDRLEN.
      assert (Es : size (body_bytes le (Attributes t hdr attrs)) = 4 + attrs_size attrs).
      { cbn [body_bytes]. rewrite size_app, attrs_concat_size. unfold size. rewrite Hh. reflexivity. }
      rewrite Es in *.
      set (a' := a ++ num le 4 (16 + len (body_bytes le (Attributes t hdr attrs))) ++ num le 2 t ++ num le 2 (r_flags m) ++
                 num le 4 (r_seq m) ++ num le 4 (r_pid m) ++ hdr).
      assert (Ea : a ++ msg_bytes le t (r_flags m) (r_seq m) (r_pid m) (body_bytes le (Attributes t hdr attrs)) ++ c
                   = a' ++ concat (map (attr_bytes le) attrs) ++ c).
      { unfold a', msg_bytes. cbn [body_bytes]. rewrite <- !app_assoc. reflexivity. }
      assert (Sa : size a' = size a + 16 + 4).
      { unfold a'. rewrite !size_app, !num_size. unfold size at 2. rewrite Hh. lia. }
      rewrite Ea, <- Sa.
      assert (Hm : attrs_size attrs mod 4 = 0).
      { clear. induction attrs as [| x l IH]; cbn [attrs_size]; [reflexivity |].
        unfold align. rewrite Z.add_comm, Z.mod_add by lia. exact IH. }
      rewrite (attr_loop_ok D le r cb rep Hcb); [| assumption | pose proof (attrs_length attrs); lia
        | rewrite Sa; unfold align; lia | lia].
      destruct (attrs_verdict r attrs v) as [v' | v' | er v']; cbn [bind].
      * eexists; split; [reflexivity | reflexivity].
      * eexists; split; [reflexivity | eexists; reflexivity].
      * eexists; split; [reflexivity | reflexivity].
    + rewrite attrs_skip by assumption. eexists; split; reflexivity.
  - destruct Hb as [Hc [Hr Hrb]]. change (16 <=? 2) with false. change (2 =? 2) with true. cbv iota.
    unfold cb_error. rewrite msg_len by lia. cbn [bind].
    replace (16 + size (body_bytes le (Error code rest)) <? HDRLEN + 20) with false
      by (unfold HDRLEN; cbn [body_bytes]; rewrite size_app, num_size; unfold size; lia).
    assert (R : read_num le 4 (a ++ msg_bytes le 2 (r_flags m) (r_seq m) (r_pid m) (body_bytes le (Error code rest)) ++ c)
                  (size a + HDRLEN) = Done (code mod 2 ^ 32)).
    { change 4 with (Z.of_nat 4). change (2 ^ 32) with (256 ^ Z.of_nat 4).
      replace (a ++ msg_bytes le 2 (r_flags m) (r_seq m) (r_pid m) (body_bytes le (Error code rest)) ++ c)
        with ((a ++ num le 4 (16 + len (body_bytes le (Error code rest))) ++ num le 2 2 ++ num le 2 (r_flags m) ++
               num le 4 (r_seq m) ++ num le 4 (r_pid m)) ++ num le 4 code ++ (rest ++ c))
        by (unfold msg_bytes; cbn [body_bytes]; rewrite <- !app_assoc; reflexivity).
      apply read_num_mid. unfold HDRLEN. rewrite !size_app, !num_size. lia. }
    rewrite R. cbn [bind]. rewrite int_word by lia. replace (code =? - 2 ^ 31) with false by lia.
    destruct (Z.eqb_spec code 0) as [E0 | E0].
    + eexists; split; [reflexivity | eexists; reflexivity].
    + eexists; split; [reflexivity |]. cbn [agrees]. do 2 f_equal. destruct (Z.ltb_spec code 0); lia.
  - eexists; split; [reflexivity | eexists; reflexivity].
  - destruct Hb as [Ht' [Hn2 [Hn3 Hrb]]]. replace (16 <=? t) with false by lia.
    replace (t =? 2) with false by lia. replace (t =? 3) with false by lia.
    destruct ((t =? 1) || (t =? 4)); eexists; split; reflexivity.
Qed.

(** ** A datagram *)

Lemma pad_size : forall l, size (l ++ pad l) = align (size l).
Proof.
  intros. rewrite size_app. pose proof (pad_length l) as P. fold (size (pad l)) in P. rewrite P. unfold align. lia.
Qed.
Lemma reply_size : forall le m, 16 <= size (reply_bytes le m).
Proof.
  intros. unfold reply_bytes, msg_bytes. rewrite !size_app, !num_size. pose proof (size_nonneg (body_bytes le (r_body m))). lia.
Qed.

Lemma cb_run_ok : forall (D : Type) le r seq (cb : option (attr_cb D)) rep, cb_good le r cb rep ->
  forall ms fuel a c e v, Forall reply_wf ms ->
  size (datagram le ms) < 2 ^ 31 -> size (datagram le ms) < Z.of_nat fuel ->
  exists o,
    cb_run le cb (a ++ datagram le ms ++ c) seq 0 4 fuel (size a) (size (datagram le ms)) CB_OK e (rep v) = Done o /\
    agrees rep e (verdict_of r seq ms v) o.
Proof.
  intros D le r seq cb rep Hcb ms. induction ms as [| m ms IH]; intros fuel a c e v F Hlen Hf;
    (destruct fuel as [| fuel]; [match type of Hf with size ?x < _ => pose proof (size_nonneg x) end; lia |]); cbn [cb_run verdict_of].
  - eexists; split; reflexivity.
  - apply Forall_cons_iff in F. destruct F as [F1 F2].
    change (datagram le (m :: ms)) with ((reply_bytes le m ++ pad (reply_bytes le m)) ++ datagram le ms) in *.
    rewrite size_app, pad_size in *.
    pose proof (reply_size le m) as Hm. pose proof (size_nonneg (datagram le ms)) as Hd.
    assert (Ha : size (reply_bytes le m) <= align (size (reply_bytes le m)) < size (reply_bytes le m) + 4)
      by (unfold align; lia).
    rewrite <- !app_assoc. unfold nlmsg_ok.
    replace (align (size (reply_bytes le m)) + size (datagram le ms) <? HDRLEN) with false by (unfold HDRLEN; lia).
    assert (Hbl : 16 + size (body_bytes le (r_body m)) = size (reply_bytes le m)).
    { unfold reply_bytes, msg_bytes. rewrite !size_app, !num_size. lia. }
    assert (GL : forall c', get_len le (a ++ reply_bytes le m ++ c') (size a) = Done (size (reply_bytes le m))).
    { intros c'. rewrite <- Hbl. unfold reply_bytes. apply msg_len. lia. }
    rewrite GL. cbn [bind]. rewrite int_small by lia.
    replace ((HDRLEN <=? size (reply_bytes le m)) && (size (reply_bytes le m) <=? align (size (reply_bytes le m)) + size (datagram le ms)))
      with true by (unfold HDRLEN; lia). cbn [negb].
    destruct (one_message_ok D le r seq cb rep Hcb m a (pad (reply_bytes le m) ++ datagram le ms ++ c) (S fuel) e v F1)
      as [o [Eo Ao]]; [lia | lia |].
    rewrite Eo. cbn [bind]. destruct o as [[res e'] d].
    destruct (reply_verdict r seq m v) as [v' | v' | er v'] eqn:Ev; cbn [is_open negb]; cbn [agrees] in Ao.
    + injection Ao as -> -> ->. cbn [bind]. rewrite align32_small by lia. rewrite int_small by lia.
      replace (align (size (reply_bytes le m)) + size (datagram le ms) - align (size (reply_bytes le m)))
        with (size (datagram le ms)) by lia.
      replace (a ++ reply_bytes le m ++ pad (reply_bytes le m) ++ datagram le ms ++ c)
        with ((a ++ reply_bytes le m ++ pad (reply_bytes le m)) ++ datagram le ms ++ c) by (now rewrite <- !app_assoc).
      rewrite <- pad_size, <- size_app.
      apply IH; [assumption | lia | lia].
    + eexists; split; [reflexivity | exact Ao].
    + eexists; split; [reflexivity | exact Ao].
Qed.
