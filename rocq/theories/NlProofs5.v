(** * Netlink messages: what goes wrong; the model of the offload sessions *)

From Coq Require Import List NArith ZArith Bool Lia ZifyBool ZifyNat ZifyN.
From Verif Require Import NlModel NlSpec NlProofs NlProofs2 NlProofs3 NlProofs4.
From Verif Require L2tpModel.
Import ListNotations.
Import NlSpec.
Local Open Scope Z_scope.

(** ** Lengths with the highest bit set *)

(** A header with length 2^31, a generic header, an attribute of 65535 bytes *)
Definition huge : list byte :=
  [0; 0; 0; 128; 16; 0; 0; 0; 0; 0; 0; 0; 0; 0; 0; 0;  0; 0; 0; 0;  255; 255; 5; 0]%N.
Lemma overread : forall fuel last fam name e, (2 <= fuel)%nat ->
  run_request true fuel last fam 4096 (repeat 0%N 4096) name None [RData huge] e Family = Undefined.
Proof.
  intros fuel last fam name e Hf. rewrite run_request_eq; [| exact I | lia]. cbv zeta.
  destruct fuel as [| [| fuel]]; [lia | lia |]. generalize (u32 (last + 1)). intros seq.
  cbn [nl_loop receive].
  change (size (repeat 0%N 4096) <? size huge) with false. cbv iota.
  set (b := huge ++ skipn (length huge) (repeat 0%N 4096)).
  assert (Eok : nlmsg_ok true b 0 (size huge) = Done true) by (vm_compute; reflexivity).
  cbn [cb_run]. rewrite Eok. cbn [bind negb].
  unfold one_message.
  assert (E1 : get_pid true b 0 = Done 0) by (vm_compute; reflexivity). rewrite E1. cbn [bind].
  change (seq_ok 0 0) with true. cbn [negb].
  assert (E2 : get_seq true b 0 = Done 0) by (vm_compute; reflexivity). rewrite E2. cbn [bind].
  change (seq_ok 0 seq) with true. cbn [negb].
  assert (E3 : get_flags true b 0 = Done 0) by (vm_compute; reflexivity). rewrite E3. cbn [bind].
  change (Z.testbit 0 4) with false. cbv iota.
  assert (E4 : get_msg_type true b 0 = Done 16) by (vm_compute; reflexivity). rewrite E4. cbn [bind].
  change (16 <=? 16) with true. cbv iota. unfold attr_parse.
  assert (E5 : get_len true b 0 = Done 2147483648) by (vm_compute; reflexivity). rewrite E5. cbn [bind].
  change (0 + align32 2147483648) with 2147483648. change (0 + HDRLEN + align 4) with 20.
  cbn [attr_loop].
  assert (E6 : attr_ok true b 20 (int (2147483648 - 20)) = Done true) by (vm_compute; reflexivity).
  rewrite E6. cbn [bind negb].
  assert (E7 : getfamily_cb true b 20 e (-1) = Done (CB_OK, e, -1)).
  { unfold getfamily_cb. assert (E : attr_get_type true b 20 = Done 5) by (vm_compute; reflexivity). rewrite E. reflexivity. }
  rewrite E7. cbn [bind]. change (CB_OK <=? CB_STOP) with false. cbv iota.
  assert (E8 : read_num true 2 b 20 = Done 65535) by (vm_compute; reflexivity). rewrite E8. cbn [bind].
  change (20 + align 65535) with 65556.
  assert (E9 : attr_ok true b 65556 (int (2147483648 - 65556)) = Undefined) by (vm_compute; reflexivity).
  rewrite E9. reflexivity.
Qed.

(** A header with length 2^32 - 1 *)
Definition full : list byte := [255; 255; 255; 255; 16; 0; 0; 0; 0; 0; 0; 0; 0; 0; 0; 0]%N.
Lemma endless : forall fuel last fam name e id,
  run_request true fuel last fam 4096 (repeat 0%N 4096) name None [RData full] e (SessionDelete id) = Endless.
Proof.
  intros fuel last fam name e id. rewrite run_request_eq; [| exact I | lia]. cbv zeta.
  generalize (request_bytes true fam (u32 (last + 1)) (SessionDelete id)). intros data.
  generalize (u32 (last + 1)). intros seq. cbn [nl_loop receive].
  change (size (repeat 0%N 4096) <? size full) with false. cbv iota.
  set (b := full ++ skipn (length full) (repeat 0%N 4096)).
  assert (H : forall res, cb_run (D := unit) true None b seq 0 4 fuel 0 16 res e tt = Endless).
  { induction fuel as [| fuel IH]; intros res; [reflexivity |]. cbn [cb_run].
    assert (Eok : nlmsg_ok true b 0 16 = Done true) by (vm_compute; reflexivity). rewrite Eok. cbn [bind negb].
    unfold one_message.
    assert (E1 : get_pid true b 0 = Done 0) by (vm_compute; reflexivity). rewrite E1. cbn [bind].
    change (seq_ok 0 0) with true. cbn [negb].
    assert (E2 : get_seq true b 0 = Done 0) by (vm_compute; reflexivity). rewrite E2. cbn [bind].
    change (seq_ok 0 seq) with true. cbn [negb].
    assert (E3 : get_flags true b 0 = Done 0) by (vm_compute; reflexivity). rewrite E3. cbn [bind].
    change (Z.testbit 0 4) with false. cbv iota.
    assert (E4 : get_msg_type true b 0 = Done 16) by (vm_compute; reflexivity). rewrite E4. cbn [bind].
    change (16 <=? 16) with true. cbv iota. cbn [bind].
    assert (E5 : get_len true b 0 = Done 4294967295) by (vm_compute; reflexivity). rewrite E5. cbn [bind].
    change (0 + align32 4294967295) with 0. change (int (16 - align32 4294967295)) with 16. apply IH. }
  change (size full) with 16. rewrite H. reflexivity.
Qed.

(** ** Bytes after the end of a message *)

(** A reply whose last attribute has two bytes, of which only one is in the message; and
    the acknowledgement *)
Definition cut : list byte := [25; 0; 0; 0; 16; 0; 0; 0; 1; 0; 0; 0; 0; 0; 0; 0;  1; 2; 0; 0;  6; 0; 1; 0; 7]%N.
Definition ack : list byte := [36; 0; 0; 0; 2; 0; 0; 0; 1; 0; 0; 0; 0; 0; 0; 0]%N ++ repeat 0%N 20.

Lemma cut_family : forall x : byte, (x = 0 \/ x = 1)%N ->
  run_request true 4097 0 0 4096 (repeat x 4096) [] None [RData cut; RData ack] 0 Family
    = Done (request_bytes true 0 1 Family, 1, 0, AFamily (7 + 256 * Z.of_N x)).
Proof.
  intros x Hx. rewrite run_request_eq; [| exact I | lia]. cbv zeta.
  destruct Hx as [-> | ->]; vm_compute; reflexivity.
Qed.

Lemma bytes_bool : forall l, forallb (fun b => (b <? 256)%N) l = true -> bytes l.
Proof. intros l H. apply Forall_forall. intros x Hx. rewrite forallb_forall in H. specialize (H x Hx). lia. Qed.

Lemma header_single : forall le l L, word le 4 l 0 = L -> (length l < Z.to_nat ((L + 3) / 4 * 4) + 16)%nat -> 16 <= L ->
  forall q, header_at le l q -> q = 0%nat \/ (length l < q + 16)%nat.
Proof.
  intros le l L HL Hlen H16 q H. induction H as [| p q Hp IH Hp16 Hw Hfit Hq]; [left; reflexivity |].
  destruct IH as [-> | IH]; [| lia]. rewrite HL in Hq. right. lia.
Qed.
Lemma cut_tame : tame true cut.
Proof.
  intros p Hp Hl.
  destruct (header_single true cut 25) with (q := p) as [-> | H]; [reflexivity | vm_compute; lia | lia | exact Hp | | lia].
  split; [vm_compute; reflexivity | intros _; vm_compute; discriminate].
Qed.
Lemma ack_tame : tame true ack.
Proof.
  intros p Hp Hl.
  destruct (header_single true ack 36) with (q := p) as [-> | H]; [reflexivity | vm_compute; lia | lia | exact Hp | | lia].
  split; [vm_compute; reflexivity | intros _ _; vm_compute; discriminate].
Qed.

(** ** The model of L2TP offload sessions *)

Lemma attrs_from : forall r attrs v w, attrs_verdict r attrs None = Open v ->
  attrs_verdict r attrs w = Open (match v with Some x => Some x | None => w end).
Proof.
  assert (K : forall r attrs x v, attrs_verdict r attrs (Some x) = Open v -> exists y, v = Some y).
  { intros r attrs. induction attrs as [| a l IH]; intros x v H; cbn [attrs_verdict] in H; [injection H as <-; eauto |].
    destruct (meaning r a) as [| y | e]; [exact (IH _ _ H) | exact (IH _ _ H) | discriminate H]. }
  intros r attrs. induction attrs as [| a l IH]; intros v w H; cbn [attrs_verdict] in *.
  - injection H as <-. reflexivity.
  - destruct (meaning r a) as [| z | e]; [exact (IH v w H) | | discriminate H].
    destruct (K r l z v H) as [y ->]. exact H.
Qed.

Lemma receive_refines : forall r code c seq q l, Forall2 (stands_for r code) q l -> L2tpModel.c_reliable c = true ->
  forall got s, L2tpModel.s_skerr s = 0%N ->
  match L2tpModel.receive c seq q got s with
  | L2tpModel.Done (ok, v) s' =>
      if ok then outcome r (Z.of_N seq) l (option_map code got) = Decided (Success (option_map code v))
      else outcome r (Z.of_N seq) l (option_map code got) = Decided (Failure (Z.of_N (L2tpModel.s_errno s')) (option_map code v))
  | L2tpModel.Hang => outcome r (Z.of_N seq) l (option_map code got) = Pending
  | _ => False
  end.
Proof.
  intros r code c seq q l F Hc. induction F as [| m a q l Hm F IH]; intros got s Hs; cbn [L2tpModel.receive outcome];
    unfold L2tpModel.failure; rewrite Hc; cbn -[L2tpModel.receive N.eqb].
  - rewrite Hs. reflexivity.
  - rewrite Hs. cbn -[L2tpModel.receive N.eqb]. change (0 =? 0)%N with true. cbn -[L2tpModel.receive N.eqb].
    destruct Hm as [x [-> [Hseq [Hfl Hbody]]]].
    unfold verdict_of, reply_verdict. rewrite Hfl.
    assert (Em : mine (Z.of_N seq) x = L2tpModel.seq_ok m seq).
    { unfold mine, L2tpModel.seq_ok. rewrite Hseq. lia. }
    rewrite Em. destruct (L2tpModel.seq_ok m seq); cbn -[L2tpModel.receive N.eqb].
    + destruct (L2tpModel.m_body m) as [v | e].
      * destruct Hbody as [t [h [attrs [Eb Ev]]]]. rewrite Eb. rewrite (attrs_from _ _ _ (option_map code got) Ev).
        replace (match option_map code v with Some x => Some x | None => option_map code got end)
          with (option_map code (match v with Some x => Some x | None => got end)) by (now destruct v).
        apply IH. exact Hs.
      * destruct Hbody as [rest Eb]. rewrite Eb. cbn -[N.eqb].
        destruct (N.eqb_spec e 0) as [-> | Ne].
        -- cbn. reflexivity.
        -- replace (- Z.of_N e =? 0) with false by lia. cbn. do 2 f_equal. lia.
    + reflexivity.
Qed.
