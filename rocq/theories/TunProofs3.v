(** Concrete interfaces and packets *)
From Coq Require Import String.
From Verif Require Import Base NonceModel BufferModel MethodModel MethodSpec SizeModel TunModel TunSpec TunProofs TunProofs2.
Open Scope nat_scope.

(** a cipher-test session with the null cipher; its peer sends an IPv4 packet of 20 bytes *)
Definition test_crypto : crypto := mk_crypto 0 (fun _ x => Some x) 0 (fun _ x => Some x) (fun _ _ => None) (fun _ _ => []).
Definition ipv4 : bytes := (69 :: repeat 0 19)%N.
Definition test_cf : mcfg := mk_mcfg 0 64.
Definition test_datagram : bytes :=
  match session_encrypt test_cf test_crypto CipherTest (common_init 0 true false 0) (mk_buf (ipv4 ++ repeat 0%N 44) 0 20) (repeat 7%N 64) with
  | Ok (Some (out, _)) => b_data out
  | _ => []
  end.
Definition test_sizes : sizes := configure [PKeyed CipherTest] MTun 1400 [].
Definition test_received : res (option dec_result) :=
  receive_data 5 MTun test_sizes test_crypto CipherTest (common_init 0 false false 0)
    (repeat 1%N (z_max_buffer test_sizes)) (repeat 2%N (z_max_buffer test_sizes)) test_datagram.
Lemma test_accepted :
  exists out s r, test_received = Ok (Some (DecOut out s r)) /\ b_data out = ipv4.
Proof. vm_compute. do 3 eexists. split; reflexivity. Qed.

Lemma cipher_test_bug : exists ps mtu now cy s g1 g2 d out s' r,
  let z := configure ps MTun mtu [] in
  length g1 = z_max_buffer z /\ length g2 = z_max_buffer z /\
  receive_data now MTun z cy CipherTest s g1 g2 d = Ok (Some (DecOut out s' r)) /\
  b_data out = ipv4 /\ forall os, with_family os MTun -> iface_write os MTun out = Bug.
Proof.
  destruct test_accepted as (out & s & r & H & Hd). unfold test_received in H.
  exists [PKeyed CipherTest], 1400, 5%Z, test_crypto, (common_init 0 false false 0),
    (repeat 1%N (z_max_buffer test_sizes)), (repeat 2%N (z_max_buffer test_sizes)), test_datagram, out, s, r.
  cbv zeta. fold test_sizes. split; [apply repeat_length|]. split; [apply repeat_length|]. split; [exact H|]. split; [exact Hd|].
  intros os Hos. refine (delivered_bug os MTun 5 test_sizes test_crypto _ _ _ _ out s r 2%N _ _ Hos H _).
  - apply repeat_length.
  - vm_compute. lia.
  - rewrite Hd. reflexivity.
Qed.

(** FreeBSD: "tun5" created and configured; "tun6" existing, its MTU refused; then the first one closed *)
Definition ex_env : environment :=
  mk_environment (fun n => Some (N.of_nat (3 + n))) (fun n => negb (Nat.eqb n 1 || Nat.eqb n 15))
    (fun _ => Some (text "tun5")) (fun _ => Some 1500%N).
Definition ex_start : st := mk_st 0 [].
Lemma ex_first_ok : exists i s, iface_open ex_env FreeBSD MTun (text "tun5") 1400 ex_start = Ok (Some i, s) /\
  t_log s = [Alloc 0; NameToIndex (text "tun5") false; Open (text "/dev/tun5") (Some 5%N); Alloc 3; NameOf 5 (Some (text "tun5"));
             SetHead 5 true; GetInfo 5 true; SetInfo 5 1400 true; Register 5] /\ i_cleanup i = true.
Proof. do 2 eexists. split; [vm_compute; reflexivity|]. split; reflexivity. Qed.
Lemma ex_run : exists i s1 s2 s3,
  iface_open ex_env FreeBSD MTun (text "tun5") 1400 ex_start = Ok (Some i, s1) /\
  iface_open ex_env FreeBSD MTun (text "tun6") 1400 s1 = Ok (None, s2) /\
  iface_close ex_env FreeBSD i s2 = Ok (tt, s3) /\
  run ex_env FreeBSD MTun [i] s2 /\ run ex_env FreeBSD MTun [] s3 /\
  replay (t_log s2) = Fine (mk_world (its_fd i) (rev (its_blocks i))) /\
  replay (t_log s3) = Fine (mk_world [] []) /\
  destroyed (text "tun5") (t_log s3) /\ ~ destroyed (text "tun5") (t_log s2).
Proof.
  destruct (iface_open ex_env FreeBSD MTun (text "tun5") 1400 ex_start) as [[[i|] s1]| | |] eqn:E1; try (vm_compute in E1; discriminate E1).
  assert (R1 : run ex_env FreeBSD MTun [i] s1) by exact (run_open _ _ _ [] ex_start _ _ _ s1 (run_start _ _ _) E1).
  destruct (iface_open ex_env FreeBSD MTun (text "tun6") 1400 s1) as [[[i2|] s2]| | |] eqn:E2;
    try (vm_compute in E1; injection E1 as <- <-; vm_compute in E2; discriminate E2).
  assert (R2 : run ex_env FreeBSD MTun [i] s2) by exact (run_open _ _ _ [i] s1 _ _ None s2 R1 E2).
  destruct (iface_close ex_env FreeBSD i s2) as [[[] s3]| | |] eqn:E3;
    try (vm_compute in E1; injection E1 as <- <-; vm_compute in E2; injection E2 as <-; vm_compute in E3; discriminate E3).
  assert (R3 : run ex_env FreeBSD MTun [] s3) by exact (run_close _ _ _ [] i [] s2 s3 R2 E3).
  exists i, s1, s2, s3. split; [reflexivity|]. split; [exact E2|]. split; [exact E3|]. split; [exact R2|]. split; [exact R3|].
  clear R1 R2 R3. vm_compute in E1; injection E1 as <- <-; vm_compute in E2; injection E2 as <-; vm_compute in E3; injection E3 as <-.
  split; [vm_compute; reflexivity|]. split; [vm_compute; reflexivity|]. split.
  - exists true. vm_compute. tauto.
  - intros [r Hr]. vm_compute in Hr. repeat destruct Hr as [Hr|Hr]; try discriminate Hr. destruct Hr.
Qed.
