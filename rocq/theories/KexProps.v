(** C25: the key exchange *)
From Verif Require Import Base BufferModel NodeModel NodeSpec NodeProps KexModel KexSpec KexProofs.

(** The initiator and the responder compute the same: the FHMQV secret of the four secret
    scalars and the handshake key made of it, or both fail because the secret is the identity *)
Theorem C25_exchange_agrees : forall K, laws K -> forall sa sb rx ry A B X Y ka kb,
  word256 sa -> word256 sb -> word256 rx -> word256 ry ->
  protocol_init K sa = Ok A -> protocol_init K sb = Ok B -> new_handshake_key K rx = Ok X -> new_handshake_key K ry = Ok Y ->
  load_key K (kp_public A) = Some ka -> load_key K (kp_public B) = Some kb ->
  let r := exchanged K (le_val sa) (le_val sb) (ephemeral rx) (ephemeral ry) (kp_public A) (kp_public B) (kp_public X) (kp_public Y) in
  make_shared K true A X kb (kp_public Y) = r /\ make_shared K false B Y ka (kp_public X) = r.
Proof. exact exchange_agrees. Qed.
Print Assumptions C25_exchange_agrees.

(** Generating an ephemeral key never fails, and the other side accepts it *)
Theorem C25_ephemeral_good : forall K, laws K -> forall r, word256 r ->
  exists kp pk, new_handshake_key K r = Ok kp /\ load_key K (kp_public kp) = Some pk.
Proof. exact ephemeral_good. Qed.
Print Assumptions C25_ephemeral_good.

(** A secret key is accepted if it is divisible by 8, and its public key is accepted by others
    unless the secret is a multiple of the order *)
Theorem C25_static_good : forall K, laws K -> forall s, word256 s ->
  ((exists kp, protocol_init K s = Ok kp) <-> (le_val s mod 8 = 0)%N) /\
  (forall kp, protocol_init K s = Ok kp -> ((exists pk, load_key K (kp_public kp) = Some pk) <-> (le_val s mod k_order K <> 0)%N)).
Proof. exact static_good. Qed.
Print Assumptions C25_static_good.

(** The session key is derived from the same inputs in the same order on both sides *)
Theorem C25_session_key : forall K A B X Y blocks method sigma salt,
  let r := k_expand K blocks (k_extract K salt sigma) (kp_public X ++ kp_public Y ++ kp_public A ++ kp_public B ++ method) in
  session_secret K true A X (kp_public B) (kp_public Y) blocks method sigma salt = r /\
  session_secret K false B Y (kp_public A) (kp_public X) blocks method sigma salt = r.
Proof. intros. split; reflexivity. Qed.
Print Assumptions C25_session_key.

(** ... which determine the keys and the method *)
Theorem C25_inputs_determined : forall (m A B X Y m' A' B' X' Y' : bytes),
  length A = 32 -> length B = 32 -> length X = 32 -> length Y = 32 -> length A' = 32 -> length B' = 32 -> length X' = 32 -> length Y' = 32 ->
  A ++ B ++ X ++ Y ++ m = A' ++ B' ++ X' ++ Y' ++ m' -> m = m' /\ A = A' /\ B = B' /\ X = X' /\ Y = Y'.
Proof. exact info_injective. Qed.
Print Assumptions C25_inputs_determined.

(** A node whose cryptography is this exchange with a static secret and the random numbers used for
    its ephemeral keys *)
Definition uses_kex (P : params) (K : kex) (own : keypair) (secret : bytes) (eph : N -> keypair) (random : N -> bytes) : Prop :=
  word256 secret /\ protocol_init K secret = Ok own /\ c_own P = kp_public own /\
  (forall s, word256 (random s) /\ new_handshake_key K (random s) = Ok (eph s) /\ c_eph P s = kp_public (eph s)) /\
  (forall i s key hk, c_shared P i s key hk = match load_key K key with Some pk => make_shared K i own (eph s) pk hk | None => None end).

(** If two nodes with different roles create sessions for each other, of each other's ephemeral
    keys, their handshake keys, secrets and session keys are the same *)
Theorem C25_nodes_agree : forall K, laws K -> forall P1 P2 own1 own2 sec1 sec2 eph1 eph2 rnd1 rnd2,
  uses_kex P1 K own1 sec1 eph1 rnd1 -> uses_kex P2 K own2 sec2 eph2 rnd2 ->
  forall n1 dt1 ev1 n1' t1 pid1 conf1 s1 salt1 sigma1 method1 sid1 src1 n2 dt2 ev2 n2' t2 pid2 conf2 s2 salt2 sigma2 method2 sid2 src2,
  reachable P1 n1 -> handles P1 n1 dt1 ev1 n1' ->
  newly n1 n1' t1 (OSession pid1 (c_own P2) conf1 true s1 (c_eph P2 s2) salt1 sigma1 method1 sid1 src1) ->
  reachable P2 n2 -> handles P2 n2 dt2 ev2 n2' ->
  newly n2 n2' t2 (OSession pid2 (c_own P1) conf2 false s2 (c_eph P1 s1) salt2 sigma2 method2 sid2 src2) ->
  salt1 = salt2 /\ sigma1 = sigma2 /\
  forall blocks method, session_secret K true own1 (eph1 s1) (c_own P2) (c_eph P2 s2) blocks method sigma1 salt1 =
                        session_secret K false own2 (eph2 s2) (c_own P1) (c_eph P1 s1) blocks method sigma2 salt2.
Proof.
  intros K L P1 P2 own1 own2 sec1 sec2 eph1 eph2 rnd1 rnd2 (W1 & I1 & O1 & E1 & S1) (W2 & I2 & O2 & E2 & S2)
    n1 dt1 ev1 n1' t1 pid1 conf1 s1 salt1 sigma1 method1 sid1 src1 n2 dt2 ev2 n2' t2 pid2 conf2 s2 salt2 sigma2 method2 sid2 src2 R1 H1 N1 R2 H2 N2.
  destruct (C26_session_needs_proof _ _ _ _ _ _ _ _ _ _ _ _ _ _ _ _ _ R1 H1 N1) as (_ & _ & _ & _ & _ & _ & C1 & _).
  destruct (C26_session_needs_proof _ _ _ _ _ _ _ _ _ _ _ _ _ _ _ _ _ R2 H2 N2) as (_ & _ & _ & _ & _ & _ & C2 & _).
  rewrite S1, O2 in C1. rewrite S2, O1 in C2. destruct (load_key K (kp_public own2)) as [k2|] eqn:L2; [|discriminate]. destruct (load_key K (kp_public own1)) as [k1|] eqn:L1; [|discriminate].
  destruct (E1 s1) as (Wr1 & G1 & P1'). destruct (E2 s2) as (Wr2 & G2 & P2'). rewrite P2' in C1. rewrite P1' in C2.
  destruct (exchange_agrees K L sec1 sec2 (rnd1 s1) (rnd2 s2) own1 own2 (eph1 s1) (eph2 s2) k1 k2 W1 W2 Wr1 Wr2 I1 I2 G1 G2 L1 L2) as [X1 X2].
  rewrite X1 in C1. rewrite X2, C1 in C2. injection C2 as <- <-. split; [reflexivity|]. split; [reflexivity|]. intros blocks method. rewrite O1, O2, P1', P2'. reflexivity.
Qed.
Print Assumptions C25_nodes_agree.

(** The hypotheses are met in a group of 8 times the size of Curve25519's base point, and the secret is
    not the identity *)
Example C25_hypotheses_met : laws ex_kex /\ exists A B X Y ka kb,
  word256 (le_bytes 32 24) /\ word256 (le_bytes 32 800) /\ word256 (le_bytes 32 77777) /\ word256 (le_bytes 32 123456) /\
  protocol_init ex_kex (le_bytes 32 24) = Ok A /\ protocol_init ex_kex (le_bytes 32 800) = Ok B /\
  new_handshake_key ex_kex (le_bytes 32 77777) = Ok X /\ new_handshake_key ex_kex (le_bytes 32 123456) = Ok Y /\
  load_key ex_kex (kp_public A) = Some ka /\ load_key ex_kex (kp_public B) = Some kb /\
  make_shared ex_kex true A X kb (kp_public Y) <> None.
Proof.
  split; [exact ex_laws|].
  assert (W : forall v, word256 (le_bytes 32 v)) by (intros v; split; [apply len_le_bytes | apply wf_le_bytes]).
  assert (EA : exists A, protocol_init ex_kex (le_bytes 32 24) = Ok A) by (eexists; vm_compute; reflexivity).
  assert (EB : exists B, protocol_init ex_kex (le_bytes 32 800) = Ok B) by (eexists; vm_compute; reflexivity).
  assert (EX : exists X, new_handshake_key ex_kex (le_bytes 32 77777) = Ok X) by (eexists; vm_compute; reflexivity).
  assert (EY : exists Y, new_handshake_key ex_kex (le_bytes 32 123456) = Ok Y) by (eexists; vm_compute; reflexivity).
  destruct EA as [A EA]. destruct EB as [B EB]. destruct EX as [X EX]. destruct EY as [Y EY].
  destruct (proj2 (proj2 (C25_static_good _ ex_laws _ (W 24%N)) A EA)) as [ka La]; [vm_compute; discriminate|].
  destruct (proj2 (proj2 (C25_static_good _ ex_laws _ (W 800%N)) B EB)) as [kb Lb]; [vm_compute; discriminate|].
  exists A, B, X, Y, ka, kb.
  split; [apply W|]. split; [apply W|]. split; [apply W|]. split; [apply W|].
  split; [exact EA|]. split; [exact EB|]. split; [exact EX|]. split; [exact EY|]. split; [exact La|]. split; [exact Lb|].
  rewrite (proj1 (C25_exchange_agrees _ ex_laws _ _ _ _ A B X Y ka kb (W 24%N) (W 800%N) (W 77777%N) (W 123456%N) EA EB EX EY La Lb)).
  unfold exchanged. assert (Z : k_is_zero ex_kex (fhmqv ex_kex (le_val (le_bytes 32 24)) (le_val (le_bytes 32 800)) (ephemeral (le_bytes 32 77777)) (ephemeral (le_bytes 32 123456))) = false) by (vm_compute; reflexivity).
  rewrite Z. discriminate.
Qed.
