From Coq Require Import Permutation String.
From Verif Require Import Base NonceModel BufferModel BufferProofs MethodModel MethodSpec SizeModel SizeProofs TunModel TunSpec TunProofs.
Notation length := List.length.

Open Scope nat_scope.
Local Opaque text.
Lemma open_failed_why E os m name mtu s s' :
  iface_open E os m name mtu s = Ok (None, s') -> acceptable os m name ->
  exists delta c, t_log s' = t_log s ++ delta /\ In c delta /\ failed c.
Proof.
  intros H Ha. destruct s as [tick l].
  destruct os; run_in H; cases_in H; try discriminate H; injection H as <-; cbn [t_log];
    rewrite <- ?app_assoc; cbn [app];
    repeat match goal with
    | [Hx : (_ || _)%bool = true |- _] => apply Bool.orb_true_iff in Hx; destruct Hx
    | [Hx : Nat.leb _ _ = true |- _] => apply Nat.leb_le in Hx
    | [Hx : negb _ = true |- _] => apply Bool.negb_true_iff in Hx
    | [Hx : prefix3 ?m ?n = false |- _] =>
        let Hn := fresh in assert (Hn : ~ named_for m n) by (rewrite <- prefix3_named; congruence); clear Hx
    end; cbn [acceptable] in Ha;
    try (match type of Ha with _ \/ _ => idtac end; exfalso; destruct Ha as [Ha|[Ha Ha2]]; [discriminate Ha | first [lia | contradiction]]);
    try (match type of Ha with _ /\ _ => idtac end; exfalso; destruct Ha as [Ha Ha2]; first [congruence | contradiction]);
    match goal with |- exists delta c, _ ++ ?L = _ ++ _ /\ _ => exists L end;
    match goal with
    | |- context [Open ?p None] => exists (Open p None)
    | |- context [SetIff ?a ?b ?c ?d None] => exists (SetIff a b c d None)
    | |- context [GetMtu ?a None] => exists (GetMtu a None)
    | |- context [SetMtu ?a ?b false] => exists (SetMtu a b false)
    | |- context [SetInfo ?a ?b false] => exists (SetInfo a b false)
    | |- context [SetHead ?a false] => exists (SetHead a false)
    end; (split; [reflexivity|]); (split; [in_list|exact I]).
Qed.

Lemma open_fatal E os m name mtu s : iface_open E os m name mtu s = Fatal -> exits E os.
Proof.
  intro H. destruct s as [tick l].
  destruct os; run_in H; cases_in H; try discriminate H; unfold exits;
    first [eexists; eassumption | left; eexists; eassumption | right; eexists; eassumption].
Qed.

Lemma open_linux_fatal E os m name mtu s :
  os = Linux \/ os = Android -> e_fd E (S (t_tick s)) = None -> iface_open E os m name mtu s = Fatal.
Proof.
  intros Hos He. destruct s as [tick l]. cbn [t_tick] in He.
  destruct Hos as [-> | ->]; cbv beta iota zeta delta [iface_open open_iface open_linux sys_open exit_errno mbind ret log ask alloc bind fst snd t_tick t_log];
    rewrite He; reflexivity.
Qed.

Lemma device_length os m name : length (device os m name) <= 20.
Proof.
  assert (H : List.length (match name with [] => match m with MTun => text "tun" | _ => text "tap" end | _ => firstn 15 name end) <= 15).
  { destruct name as [|x n]; [destruct m; vm_compute; lia|]. apply firstn_le_length. }
  unfold device. destruct os; try (vm_compute; lia); rewrite app_length; change (List.length (text "/dev/")) with 5; lia.
Qed.
Lemma open_path E os m name mtu s r s' p x :
  iface_open E os m name mtu s = Ok (r, s') -> In (Open p x) (t_log s') -> In (Open p x) (t_log s) \/ p = device os m name.
Proof.
  intros H Hin. destruct s as [tick l].
  destruct os; run_in H; cases_in H; try discriminate H; injection H as <- <-; cbn [t_log] in *;
    rewrite <- ?app_assoc in Hin; cbn [app] in Hin; apply in_app_or in Hin; destruct Hin as [Hin|Hin]; try (left; exact Hin); right;
    cbn [In] in Hin; repeat destruct Hin as [Hin|Hin]; try discriminate Hin; try (match type of Hin with False => destruct Hin end);
    injection Hin as <- _; destruct m; reflexivity.
Qed.

(** ** Packets *)
Lemma prefixed_family os m : prefixed os m = true <-> with_family os m.
Proof.
  unfold prefixed, with_family. destruct os, m; cbn; split; intro H; try discriminate H; try reflexivity;
    try (split; [reflexivity|]; tauto); destruct H as [H1 H2]; try discriminate H1; destruct H2 as [H2|[H2|H2]]; discriminate H2.
Qed.
Lemma b_data_length b mb : buf_wf mb b -> length (b_data b) = b_len b.
Proof. intros [H1 H2]. unfold b_data, slice. rewrite firstn_length, skipn_length. lia. Qed.

Lemma shiftr4 b : N.shiftr b 4 = (b / 16)%N.
Proof. rewrite N.shiftr_div_pow2. reflexivity. Qed.
Lemma read_data b mb : buf_wf mb b -> read (b_mem b) (b_off b) (b_len b) = Ok (b_data b).
Proof. intros [H1 H2]. now rewrite read_ok by lia. Qed.
Lemma read_first b mb x rest : buf_wf mb b -> b_data b = x :: rest -> exists h, read (b_mem b) (b_off b) 1 = Ok h /\ nth 0 h 0%N = x.
Proof.
  intros W Hd. pose proof (b_data_length b mb W) as L. rewrite Hd in L. cbn [length] in L. destruct W as [H1 H2].
  rewrite read_ok by lia. eexists. split; [reflexivity|].
  unfold b_data, slice in Hd. unfold slice. destruct (skipn (b_off b) (b_mem b)) as [|y ys].
  - rewrite firstn_nil in Hd. discriminate Hd.
  - destruct (b_len b) as [|k]; cbn in Hd; [discriminate Hd|]. cbn. congruence.
Qed.

Lemma write_packet os m b mb :
  buf_wf mb b -> (with_family os m -> 4 <= b_off b) ->
  exists d, iface_write os m b = Ok d /\ to_write os m (b_data b) d.
Proof.
  intros W Hr. pose proof (b_data_length b mb W) as L. pose proof (read_data b mb W) as Hrd. unfold iface_write.
  destruct (Nat.eqb_spec (b_len b) 0) as [Hz|Hz].
  { exists None. split; [reflexivity|]. rewrite Hz in L. apply length_zero_iff_nil in L. unfold to_write. rewrite L.
    split; [reflexivity|]. split; intro C; exfalso; now apply C. }
  assert (Hne : b_data b <> []) by (intro C; rewrite C in L; cbn in L; lia).
  destruct (prefixed os m) eqn:Hp.
  - apply prefixed_family in Hp. specialize (Hr Hp).
    destruct (b_data b) as [|x rest] eqn:Hd; [now destruct Hne|].
    destruct (read_first b mb x rest W Hd) as (h & Hh & Hx). rewrite Hh. cbn [bind]. rewrite Hx, shiftr4.
    assert (HF : family os (x :: rest) =
      (if N.eqb (x / 16) 4 then Some AF_INET else if N.eqb (x / 16) 6 then Some (AF_INET6 os) else None)) by reflexivity.
    rewrite <- HF. destruct (family os (x :: rest)) as [af|] eqn:Haf.
    + destruct W as [W1 W2]. rewrite b_push_from_ok by (cbn [length]; lia). cbn [bind b_mem b_off b_len length].
      rewrite read_ok by (rewrite length_overwrite by (cbn [length]; lia); lia). cbn [bind].
      eexists. split; [reflexivity|]. unfold to_write. split; [intro C; discriminate C|]. split; [intros _ C; contradiction|].
      intros _ _. rewrite Haf. f_equal. replace (b_len b + 4) with (4 + b_len b) by lia. rewrite slice_add.
      f_equal.
      * change 4 with (length [0; 0; 0; af]%N) at 2. now rewrite slice_overwrite_same by (cbn [length]; lia).
      * rewrite slice_overwrite_after by (cbn [length]; lia). replace (b_off b - 4 + 4) with (b_off b) by lia. exact Hd.
    + eexists. split; [reflexivity|]. unfold to_write. split; [reflexivity|]. split; [intros _ C; contradiction|].
      intros _ _. now rewrite Haf.
  - rewrite Hrd. cbn [bind]. eexists. split; [reflexivity|]. unfold to_write.
    split; [intro C; contradiction|]. split; [reflexivity|]. intros _ C. apply prefixed_family in C. congruence.
Qed.

Lemma write_no_room os m b mb af :
  buf_wf mb b -> with_family os m -> b_off b < 4 -> family os (b_data b) = Some af -> iface_write os m b = Bug.
Proof.
  intros W Hp Ho Haf. pose proof (b_data_length b mb W) as L. unfold iface_write.
  destruct (b_data b) as [|x rest] eqn:Hd; [discriminate Haf|]. cbn [length] in L.
  destruct (Nat.eqb_spec (b_len b) 0) as [Hz|Hz]; [lia|].
  apply prefixed_family in Hp. rewrite Hp.
  destruct (read_first b mb x rest W Hd) as (h & Hh & Hx). rewrite Hh. cbn [bind]. rewrite Hx, shiftr4.
  change (if N.eqb (x / 16) 4 then Some AF_INET else if N.eqb (x / 16) 6 then Some (AF_INET6 os) else None) with (family os (x :: rest)).
  rewrite Haf. unfold b_push_from, b_push. cbn [length]. destruct (Nat.ltb_spec (b_off b) 4); [reflexivity|lia].
Qed.

(** ** Room before decrypted packets *)
Lemma bind_ok {A B} (x : res A) (f : A -> res B) y : (do a <- x; f a) = Ok y -> exists a, x = Ok a /\ f a = Ok y.
Proof. destruct x; cbn; try discriminate. eauto. Qed.
Lemma write_length mem off d m' : write mem off d = Ok m' -> length m' = length mem.
Proof.
  unfold write. destruct (Nat.leb_spec (off + length d) (length mem)); [|discriminate]. intro H0. injection H0 as <-.
  now rewrite length_overwrite by lia.
Qed.
Lemma write_blocks_length mem off d m' : write_blocks mem off d = Ok m' -> length m' = length mem.
Proof. unfold write_blocks. destruct (aligned16 off); [|discriminate]. apply write_length. Qed.
Lemma alloc_inv mb g len hr b : b_alloc mb g len hr = Ok b -> b = mk_buf g hr len /\ hr + len <= mb.
Proof.
  unfold b_alloc. destruct (Nat.ltb_spec mb (alignto (hr + len) 16)); [discriminate|]. intro H0. injection H0 as <-.
  split; [reflexivity|]. pose proof (alignto_16_bounds (hr + len)). lia.
Qed.
Lemma pull_inv b n b' : b_pull b n = Ok b' -> b' = mk_buf (b_mem b) (b_off b + n) (b_len b - n) /\ n <= b_len b.
Proof. unfold b_pull. destruct (Nat.ltb_spec (b_len b) n); [discriminate|]. intro H0. injection H0 as <-. auto. Qed.
Lemma finish_inv now s out nonce age o s' r :
  finish_decrypt now s out nonce age = Ok (DecOut o s' r) -> b_mem o = b_mem out /\ b_off o = b_off out /\ b_len o <= b_len out.
Proof.
  unfold finish_decrypt. destruct (reorder_check now s nonce age); try discriminate; intro H; injection H as <- <- <-; cbn; (split; [reflexivity|]); (split; [reflexivity|]); lia.
Qed.

Lemma decrypt_room now cf cy sh s b g out s' r :
  length g = m_max_buffer cf -> session_decrypt now cf cy sh s b g = Ok (DecOut out s' r) ->
  buf_wf (m_max_buffer cf) out /\
  match sh with CipherTest => b_off out = m_encrypt_headroom cf | _ => 16 <= b_off out end.
Proof.
  intros Hg H. unfold session_decrypt in H. apply bind_ok in H. destruct H as (b1 & _ & H).
  destruct sh; cbn [method_decrypt] in H;
    unfold generic_mac_decrypt, composed_mac_decrypt, poly1305_decrypt, cipher_test_decrypt, poly1305_restore in H;
    repeat match type of H with
    | (do _ <- _; _) = Ok _ => let x := fresh "x" in let Hx := fresh "Hx" in apply bind_ok in H; destruct H as (x & Hx & H)
    | (if ?c then _ else _) = Ok _ => destruct c; try discriminate H
    | match ?c with Some _ => _ | None => _ end = Ok _ => destruct c; try discriminate H
    | (let (_, _) := ?c in _) = Ok _ => destruct c
    | Ok (DecNull _) = Ok _ => discriminate H
    end; cbn [b_mem b_off b_len] in *;
    apply finish_inv in H; destruct H as (H1 & H2 & H3);
    repeat match goal with
    | [Hx : b_alloc _ _ _ _ = Ok _ |- _] => apply alloc_inv in Hx; destruct Hx as [-> ?]
    | [Hx : b_pull _ _ = Ok _ |- _] => apply pull_inv in Hx; destruct Hx as [-> ?]
    | [Hx : write_blocks _ _ _ = Ok _ |- _] => apply write_blocks_length in Hx
    end; cbn [b_mem b_off b_len] in *; unfold buf_wf, ssub in *;
    rewrite ?H1, ?H2;
    (split; [split|]); repeat match goal with |- context [if ?c then _ else _] => destruct c end; try lia.
Qed.

Lemma delivered_written os m now z cy sh s g1 g2 d out s' r :
  length g2 = z_max_buffer z ->
  receive_data now m z cy sh s g1 g2 d = Ok (Some (DecOut out s' r)) ->
  sh <> CipherTest \/ 4 <= z_encrypt_headroom z \/ ~ with_family os m ->
  exists w, iface_write os m out = Ok w /\ to_write os m (b_data out) w.
Proof.
  intros Hg H Hsh. unfold receive_data in H. apply bind_ok in H. destruct H as (b & _ & H).
  apply bind_ok in H. destruct H as (ob & _ & H). destruct ob as [b1|]; [|discriminate H].
  apply bind_ok in H. destruct H as (rr & Hr & H). injection H as ->.
  destruct (decrypt_room now (size_cfg z) cy sh s b1 g2 out s' r Hg Hr) as [W Ho].
  apply (write_packet os m out (m_max_buffer (size_cfg z)) W). intro Hp. cbn [size_cfg m_encrypt_headroom] in Ho.
  destruct sh; try lia. destruct Hsh as [C|[C|C]]; [now destruct C | lia | contradiction].
Qed.
Lemma delivered_bug os m now z cy s g1 g2 d out s' r af :
  length g2 = z_max_buffer z -> z_encrypt_headroom z < 4 -> with_family os m ->
  receive_data now m z cy CipherTest s g1 g2 d = Ok (Some (DecOut out s' r)) -> family os (b_data out) = Some af ->
  iface_write os m out = Bug.
Proof.
  intros Hg Hz Hp H Haf. unfold receive_data in H. apply bind_ok in H. destruct H as (b & _ & H).
  apply bind_ok in H. destruct H as (ob & _ & H). destruct ob as [b1|]; [|discriminate H].
  apply bind_ok in H. destruct H as (rr & Hr & H). injection H as ->.
  destruct (decrypt_room now (size_cfg z) cy CipherTest s b1 g2 out s' r Hg Hr) as [W Ho]. cbn [size_cfg m_encrypt_headroom] in Ho.
  apply (write_no_room os m out (m_max_buffer (size_cfg z)) af W Hp); [lia | exact Haf].
Qed.

(** the methods without encryption *)
Lemma receive_room m z g d b : length g = z_max_buffer z -> receive m z g d = Ok b -> buf_wf (z_max_buffer z) b /\ b_off b = z_decrypt_headroom z.
Proof.
  intros Hg H. unfold receive in H. apply bind_ok in H. destruct H as (b0 & H0 & H). apply alloc_inv in H0. destruct H0 as [-> H0].
  apply bind_ok in H. destruct H as (mem & Hm & H). apply write_length in Hm. injection H as <-. cbn [b_mem b_off b_len] in *.
  split; [|reflexivity]. split; cbn [b_mem b_off b_len]; [congruence|].
  pose proof (firstn_le_length (recv_max_len m z) d). lia.
Qed.
Lemma strip_room z b b' : buf_wf (z_max_buffer z) b -> strip_control b = Ok (Some b') -> buf_wf (z_max_buffer z) b' /\ b_off b <= b_off b'.
Proof.
  intros [W1 W2] H. unfold strip_control in H. apply bind_ok in H. destruct H as (t & _ & H).
  destruct (N.eqb (nth 0 t 0%N) 200).
  - destruct (Nat.ltb (b_len b) (12 + 1)); [discriminate H|]. apply bind_ok in H. destruct H as (h & _ & H).
    apply bind_ok in H. destruct H as (b1 & Hp & H). apply pull_inv in Hp. destruct Hp as [-> Hp].
    destruct (negb _); [discriminate H|]. injection H as <-. unfold buf_wf. cbn [b_mem b_off b_len]. lia.
  - injection H as <-. unfold buf_wf. lia.
Qed.
Lemma l2tp_room z b out : buf_wf (z_max_buffer z) b -> null_l2tp_decrypt b = Ok (Some out) -> buf_wf (z_max_buffer z) out /\ b_off b <= b_off out.
Proof.
  intros [W1 W2] H. unfold null_l2tp_decrypt in H.
  repeat match type of H with
    | (do _ <- _; _) = Ok _ => let x := fresh "x" in let Hx := fresh "Hx" in apply bind_ok in H; destruct H as (x & Hx & H)
    | (if ?c then _ else _) = Ok _ => destruct c; try discriminate H
    | match ?c with Some _ => _ | None => _ end = Ok _ => destruct c; try discriminate H
    end.
  all: repeat match goal with
    | [Hx : b_pull _ _ = Ok _ |- _] => apply pull_inv in Hx; destruct Hx as [-> ?]
    end; injection H as <-; unfold buf_wf; cbn [b_mem b_off b_len] in *; lia.
Qed.
Lemma plain_written os m ps mtu pm g d b b1 out :
  length g = z_max_buffer (configure ps m mtu pm) -> receive m (configure ps m mtu pm) g d = Ok b -> strip_control b = Ok (Some b1) ->
  null_decrypt b1 = Ok out \/ null_l2tp_decrypt b1 = Ok (Some out) ->
  exists w, iface_write os m out = Ok w /\ to_write os m (b_data out) w.
Proof.
  intros Hg Hr Hs Hd. destruct (receive_room _ _ _ _ _ Hg Hr) as [W Ho]. destruct (strip_room _ _ _ W Hs) as [W1 Ho1].
  assert (H8 : 8 <= z_decrypt_headroom (configure ps m mtu pm)) by (cbn [configure z_decrypt_headroom]; lia).
  assert (HW : buf_wf (z_max_buffer (configure ps m mtu pm)) out /\ b_off b1 <= b_off out).
  { destruct Hd as [Hd|Hd]; [|exact (l2tp_room _ _ _ W1 Hd)]. unfold null_decrypt in Hd. apply pull_inv in Hd. destruct Hd as [-> Hd].
    destruct W1. unfold buf_wf. cbn [b_mem b_off b_len]. lia. }
  destruct HW as [HW Ho2]. apply (write_packet os m out _ HW). intro. lia.
Qed.

(** ** Reading *)
Lemma read_plain os m ps mtu pm imtu g packet :
  length g = z_max_buffer (configure ps m mtu pm) -> imtu <= z_max_mtu (configure ps m mtu pm) -> ~ with_family os m ->
  exists b, iface_handle os m (configure ps m mtu pm) imtu g (Some packet) = Ok b /\ b_data b = firstn (max_payload m imtu) packet.
Proof.
  intros Hg Hm Hp. unfold iface_handle. destruct (prefixed os m) eqn:E; [apply prefixed_family in E; contradiction|].
  destruct (iface_read_ok ps m mtu pm imtu g packet Hg Hm) as (b & Hb & Hd & _). exists b. now split.
Qed.
Lemma read_prefixed os m ps mtu pm imtu g af packet :
  length g = z_max_buffer (configure ps m mtu pm) -> imtu <= z_max_mtu (configure ps m mtu pm) -> with_family os m ->
  length af = 4 -> 4 <= imtu ->
  exists b, iface_handle os m (configure ps m mtu pm) imtu g (Some (af ++ packet)) = Ok b /\ b_data b = firstn (imtu - 4) packet.
Proof.
  intros Hg Hm Hp Ha H4. pose proof Hp as [-> _]. apply prefixed_family in Hp. unfold iface_handle. rewrite Hp.
  destruct (size_facts ps MTun mtu pm) as [F1 [F2 [F3 [F4 [F5 [F6 [F7 [F8 [F9 [F10 F11]]]]]]]]]].
  set (z := configure ps MTun mtu pm) in *. clearbody z. cbn [max_payload] in *.
  unfold iface_read_multiaf. cbn [max_payload]. rewrite b_alloc_ok by lia. cbn [bind b_mem b_off].
  pose proof (firstn_length imtu (af ++ packet)) as L. rewrite app_length in L.
  rewrite write_ok by lia. cbn [bind]. rewrite b_pull_ok by (cbn [b_len]; lia). cbn [b_mem b_off b_len].
  eexists. split; [reflexivity|]. unfold b_data. cbn [b_mem b_off b_len].
  rewrite slice_overwrite_in by lia. rewrite firstn_app, Ha. rewrite firstn_all2 by lia.
  rewrite slice_app_r by lia. rewrite Ha. replace (4 - 4) with 0 by lia.
  unfold slice. cbn [skipn]. apply firstn_all2. rewrite app_length. lia.
Qed.
Lemma read_short os m ps mtu pm imtu g d :
  length g = z_max_buffer (configure ps m mtu pm) -> imtu <= z_max_mtu (configure ps m mtu pm) -> with_family os m ->
  length d < 4 -> iface_handle os m (configure ps m mtu pm) imtu g (Some d) = Bug.
Proof.
  intros Hg Hm Hp Hd. pose proof Hp as [-> _]. apply prefixed_family in Hp. unfold iface_handle. rewrite Hp.
  destruct (size_facts ps MTun mtu pm) as [F1 [F2 [F3 [F4 [F5 [F6 [F7 [F8 [F9 [F10 F11]]]]]]]]]].
  set (z := configure ps MTun mtu pm) in *. clearbody z. cbn [max_payload] in *.
  unfold iface_read_multiaf. cbn [max_payload]. rewrite b_alloc_ok by lia. cbn [bind b_mem b_off].
  pose proof (firstn_le_length imtu d) as L. pose proof (firstn_length imtu d) as L2.
  rewrite write_ok by lia. cbn [bind]. unfold b_pull. cbn [b_len].
  destruct (Nat.ltb_spec (length (firstn imtu d)) 4); [reflexivity|lia].
Qed.
