(** C74: TUN/TAP interfaces are opened as configured and given back, and packets cross them unchanged *)
From Coq Require Import String.
From Verif Require Import Base NonceModel BufferModel MethodModel MethodSpec SizeModel TunModel TunSpec TunProofs TunProofs2 TunProofs3.
Notation length := List.length.
Open Scope nat_scope.

(** Over any sequence of opening and closing, with any answers of the system: no descriptor is used after it was
    closed or closed while polled, no block is freed twice, and what is open, polled and allocated is exactly what the
    interfaces in use need. *)
Theorem C74_accounts : forall E os m held s, run E os m held s -> accounts (t_log s) held.
Proof. intros E os m held s H. exact (proj1 (run_accounts E os m held s H)). Qed.
Print Assumptions C74_accounts.

(** Opening never ends in a bug, and ends the program only after certain failures; what was opened can be closed. *)
Theorem C74_safe :
  forall E os m held s, run E os m held s ->
    (forall name mtu, iface_open E os m name mtu s <> Bug /\ iface_open E os m name mtu s <> UB /\
       (iface_open E os m name mtu s = Fatal -> exits E os)) /\
    (forall i, In i held -> exists s', iface_close E os i s = Ok (tt, s')).
Proof.
  intros E os m held s H. split.
  - intros name mtu. destruct (open_outcome E os m name mtu s) as [H1 H2].
    split; [exact H1|]. split; [exact H2|]. exact (open_fatal E os m name mtu s).
  - intros i Hi. apply close_outcome. exact (proj1 (Forall_forall _ _) (proj2 (run_accounts E os m held s H)) i Hi).
Qed.
Print Assumptions C74_safe.

Theorem C74_configured :
  forall E os m name mtu s i s',
    iface_open E os m name mtu s = Ok (Some i, s') ->
    exists fd nb n delta,
      t_log s' = t_log s ++ delta ++ [Register fd] /\
      i_fd i = Some fd /\ i_name i = Some (nb, n) /\ i_mtu i = mtu /\
      acceptable os m name /\
      In (Open (device os m name) (Some fd)) delta /\
      gives_name os m fd name n delta /\ gives_mtu os fd n mtu delta /\ gives_prefix os m fd delta /\
      (i_cleanup i = true <-> created os name delta) /\ (forall x, ~ destroyed x delta).
Proof. exact open_configured. Qed.
Print Assumptions C74_configured.

(** No other device is opened, and its path fits into the 21 bytes of dev_name. *)
Theorem C74_device :
  forall E os m name mtu s r s' p x,
    iface_open E os m name mtu s = Ok (r, s') -> In (Open p x) (t_log s') ->
    In (Open p x) (t_log s) \/ (p = device os m name /\ length p < 21).
Proof.
  intros E os m name mtu s r s' p x H Hin. destruct (open_path E os m name mtu s r s' p x H Hin) as [H1|H1]; [now left|].
  right. split; [exact H1|]. rewrite H1. exact (le_n_S _ _ (device_length os m name)).
Qed.
Print Assumptions C74_device.

(** Failure: only for a name that is not acceptable or after a failing call; an interface that did not exist before is
    removed once its descriptor is closed, one that did is not. *)
Theorem C74_failed :
  forall E os m name mtu s s',
    iface_open E os m name mtu s = Ok (None, s') ->
    (acceptable os m name -> exists delta c, t_log s' = t_log s ++ delta /\ In c delta /\ failed c) /\
    exists delta, t_log s' = t_log s ++ delta /\
      (forall fd, ~ In (Register fd) delta) /\
      ((exists n, destroyed n delta) <->
       created os name delta /\ exists p fd, In (Open p (Some fd)) delta /\ In (Close fd true) delta) /\
      (forall n, destroyed n delta -> exists p fd d1 d2,
         delta = d1 ++ Close fd true :: d2 /\ In (Open p (Some fd)) d1 /\ gives_name os m fd name n d1 /\ destroyed n d2).
Proof.
  intros E os m name mtu s s' H. split.
  - exact (open_failed_why E os m name mtu s s' H).
  - exact (open_failed E os m name mtu s s' H).
Qed.
Print Assumptions C74_failed.

Theorem C74_close :
  forall E os i s s',
    iface_close E os i s = Ok (tt, s') ->
    exists fd ok rest delta,
      i_fd i = Some fd /\ t_log s' = t_log s ++ [Unregister fd; Close fd ok] ++ delta ++ rest /\
      (forall c, In c rest -> exists b, c = Free b) /\
      match i_name i with
      | Some (_, n) =>
          if (ok && i_cleanup i && match os with FreeBSD => true | _ => false end)%bool
          then exists r, delta = [Destroy (firstn 15 n) r] else delta = []
      | None => delta = []
      end.
Proof. exact close_calls. Qed.
Print Assumptions C74_close.

(** Whatever was received and decrypted is written unchanged, after its address family where the system wants one;
    [C74_cipher_test_refuted] has the exception. *)
Theorem C74_written :
  (forall os m now z cy sh s g1 g2 d out s' r,
     length g2 = z_max_buffer z ->
     receive_data now m z cy sh s g1 g2 d = Ok (Some (DecOut out s' r)) ->
     sh <> CipherTest \/ 4 <= z_encrypt_headroom z \/ ~ with_family os m ->
     exists w, iface_write os m out = Ok w /\ to_write os m (b_data out) w) /\
  (forall os m ps mtu pm g d b b1 out,
     length g = z_max_buffer (configure ps m mtu pm) ->
     receive m (configure ps m mtu pm) g d = Ok b -> strip_control b = Ok (Some b1) ->
     null_decrypt b1 = Ok out \/ null_l2tp_decrypt b1 = Ok (Some out) ->
     exists w, iface_write os m out = Ok w /\ to_write os m (b_data out) w).
Proof. exact (conj delivered_written plain_written). Qed.
Print Assumptions C74_written.

(** Packets read: as long as they are at most as long as the payload allowed, or MTU - 4 with an address family. *)
Theorem C74_read :
  forall os m ps mtu pm imtu g,
    length g = z_max_buffer (configure ps m mtu pm) -> imtu <= z_max_mtu (configure ps m mtu pm) ->
    (~ with_family os m -> forall packet,
       exists b, iface_handle os m (configure ps m mtu pm) imtu g (Some packet) = Ok b /\
         b_data b = firstn (max_payload m imtu) packet) /\
    (with_family os m -> 4 <= imtu -> forall af packet, length af = 4 ->
       exists b, iface_handle os m (configure ps m mtu pm) imtu g (Some (af ++ packet)) = Ok b /\
         b_data b = firstn (imtu - 4) packet) /\
    (with_family os m -> forall d, length d < 4 -> iface_handle os m (configure ps m mtu pm) imtu g (Some d) = Bug).
Proof.
  intros os m ps mtu pm imtu g Hg Hm. split; [|split].
  - intros Hp packet. exact (read_plain os m ps mtu pm imtu g packet Hg Hm Hp).
  - intros Hp H4 af packet Ha. exact (read_prefixed os m ps mtu pm imtu g af packet Hg Hm Hp Ha H4).
  - intros Hp d Hd. exact (read_short os m ps mtu pm imtu g d Hg Hm Hp Hd).
Qed.
Print Assumptions C74_read.

(** Full statement: packets of at most MTU bytes are read unchanged.  False on the BSDs: the four bytes of the address
    family count, so the end of a longer packet than MTU - 4 is lost. *)
Theorem C74_read_mtu_refuted :
  forall os ps mtu pm imtu g,
    length g = z_max_buffer (configure ps MTun mtu pm) -> imtu <= z_max_mtu (configure ps MTun mtu pm) ->
    with_family os MTun -> 4 <= imtu ->
    forall af packet, length af = 4 -> imtu - 4 < length packet <= imtu ->
      exists b, iface_handle os MTun (configure ps MTun mtu pm) imtu g (Some (af ++ packet)) = Ok b /\
        length (b_data b) < length packet.
Proof.
  intros os ps mtu pm imtu g Hg Hm Hp H4 af packet Ha Hl.
  destruct (read_prefixed os MTun ps mtu pm imtu g af packet Hg Hm Hp Ha H4) as (b & Hb & Hd).
  exists b. split; [exact Hb|]. rewrite Hd, firstn_length. lia.
Qed.
Print Assumptions C74_read_mtu_refuted.

(** Full statement: a packet that was decrypted can be written.  False on the BSDs in TUN mode with cipher-test as the
    only method: there is no room for the address family, which ends the program. *)
Theorem C74_cipher_test_refuted :
  exists ps mtu now cy s g1 g2 d out s' r,
    let z := configure ps MTun mtu [] in
    length g1 = z_max_buffer z /\ length g2 = z_max_buffer z /\
    receive_data now MTun z cy CipherTest s g1 g2 d = Ok (Some (DecOut out s' r)) /\
    b_data out = ipv4 /\ forall os, with_family os MTun -> iface_write os MTun out = Bug.
Proof. exact cipher_test_bug. Qed.
Print Assumptions C74_cipher_test_refuted.

(** Full statement: an interface that cannot be opened is given up.  False on Linux if the device file cannot be
    opened: the program ends. *)
Theorem C74_gives_up_refuted :
  forall E os m name mtu s,
    os = Linux \/ os = Android -> e_fd E (S (t_tick s)) = None -> iface_open E os m name mtu s = Fatal.
Proof. exact open_linux_fatal. Qed.
Print Assumptions C74_gives_up_refuted.

(** tun5 is created, configured and removed again; tun6 exists, and its MTU is refused *)
Example C74_configured_ex :
  exists i s, iface_open ex_env FreeBSD MTun (text "tun5") 1400 ex_start = Ok (Some i, s) /\
    t_log s = [Alloc 0; NameToIndex (text "tun5") false; Open (text "/dev/tun5") (Some 5%N); Alloc 3; NameOf 5 (Some (text "tun5"));
               SetHead 5 true; GetInfo 5 true; SetInfo 5 1400 true; Register 5] /\ i_cleanup i = true.
Proof. exact ex_first_ok. Qed.
Example C74_accounts_ex :
  exists i s1 s2 s3,
    iface_open ex_env FreeBSD MTun (text "tun5") 1400 ex_start = Ok (Some i, s1) /\
    iface_open ex_env FreeBSD MTun (text "tun6") 1400 s1 = Ok (None, s2) /\
    iface_close ex_env FreeBSD i s2 = Ok (tt, s3) /\
    run ex_env FreeBSD MTun [i] s2 /\ run ex_env FreeBSD MTun [] s3 /\
    replay (t_log s2) = Fine (mk_world (its_fd i) (rev (its_blocks i))) /\
    replay (t_log s3) = Fine (mk_world [] []) /\
    destroyed (text "tun5") (t_log s3) /\ ~ destroyed (text "tun5") (t_log s2).
Proof. exact ex_run. Qed.
Example C74_read_ex :
  with_family OpenBSD MTun /\ ~ with_family Linux MTun /\ 1400 <= z_max_mtu test_sizes /\ z_max_buffer test_sizes = 1424 /\
  family OpenBSD ipv4 = Some 2%N /\ family NetBSD (96 :: repeat 0 39)%N = Some 24%N.
Proof.
  split; [split; [reflexivity|]; tauto|]. split; [intros [_ [H|[H|H]]]; discriminate H|].
  split; [apply Nat.leb_le; reflexivity|]. split; [reflexivity|]. split; reflexivity.
Qed.
