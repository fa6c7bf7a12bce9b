(** Property theorems C13, C14, C18, C51: hash functions and comparisons. *)
From Verif Require Import Base BaseLemmas BufferModel ShaModel ShaSpec ShaProofs ShaProofs2.
Local Open Scope N_scope.

(** ** C13  SHA-256 agrees with FIPS 180-4 *)
Theorem C13_sha256_blocks :
  forall bs,
    Forall (fun b : bytes => length b = 32%nat /\ wf_bytes b) bs -> N.of_nat (32 * length bs) < 2 ^ 29 ->
    sha256_blocks bs = Ok (Fips.sha256 (concat bs)).
Proof. exact sha256_blocks_spec. Qed.
Print Assumptions C13_sha256_blocks.

Theorem C13_sha256_buffer :
  forall mem len,
    (len <= length mem)%nat -> wf_bytes mem -> N.of_nat len < 2 ^ 29 ->
    sha256 mem len = Ok (Fips.sha256 (firstn len mem)).
Proof. exact sha256_spec. Qed.
Print Assumptions C13_sha256_buffer.

(** Test vector (FIPS 180-4, "abc"), for the model and the specification. *)
Example C13_nonvacuous :
  sha256 [97; 98; 99; 7] 3 = Ok
    [0xba;0x78;0x16;0xbf;0x8f;0x01;0xcf;0xea;0x41;0x41;0x40;0xde;0x5d;0xae;0x22;0x23;
     0xb0;0x03;0x61;0xa3;0x96;0x17;0x7a;0x9c;0xb4;0x10;0xff;0x61;0xf2;0x00;0x15;0xad] /\
  (3 <= length [97; 98; 99; 7])%nat /\ wf_bytes [97; 98; 99; 7].
Proof. split; [vm_compute; reflexivity|]. split; [cbn [length]; lia|]. apply wf_bytesb_spec. reflexivity. Qed.

(** ** C14  HMAC and HKDF agree with RFC 2104 / 5869 *)
Theorem C14_hmac :
  forall key mem len,
    wf_bytes key -> length key = 32%nat -> wf_bytes mem -> (len <= length mem)%nat -> N.of_nat len + 64 < 2 ^ 29 ->
    hmacsha256 key mem len = Ok (Rfc.hmac key (firstn len mem)).
Proof. exact hmac_spec. Qed.
Print Assumptions C14_hmac.

Theorem C14_hmac_blocks :
  forall key bs,
    wf_bytes key -> length key = 32%nat ->
    Forall (fun b : bytes => length b = 32%nat /\ wf_bytes b) bs -> N.of_nat (32 * length bs) + 64 < 2 ^ 29 ->
    hmacsha256_blocks key bs = Ok (Rfc.hmac key (concat bs)).
Proof. exact hmac_blocks_spec. Qed.
Print Assumptions C14_hmac_blocks.

Theorem C14_hkdf_extract :
  forall salt ikm,
    wf_bytes salt -> length salt = 32%nat -> wf_bytes ikm -> N.of_nat (length ikm) + 64 < 2 ^ 29 ->
    hkdf_extract salt ikm (length ikm) = Ok (Rfc.hmac salt ikm).
Proof.
  intros salt ikm Hs Ls Hi Li.
  rewrite <- (firstn_all ikm) at 3. exact (hmac_spec salt ikm (length ikm) Hs Ls Hi (le_n _) Li).
Qed.
Print Assumptions C14_hkdf_extract.

Theorem C14_hkdf_expand :
  forall n prk info,
    wf_bytes prk -> length prk = 32%nat -> wf_bytes info -> N.of_nat (length info) + 97 < 2 ^ 29 -> (n <= 255)%nat ->
    hkdf_expand n prk info = Ok (map (Rfc.T prk info) (seq 1 n)).
Proof. exact hkdf_expand_spec. Qed.
Print Assumptions C14_hkdf_expand.

(** RFC 4231 test case 6 does not apply (131-byte key); this is HMAC with the key
    0x0b * 32 on "Hi There", computed with an independent implementation. *)
Example C14_nonvacuous :
  hmacsha256 (repeat 0x0b 32) [72; 105; 32; 84; 104; 101; 114; 101] 8 = Ok
    (be_bytes 32 0x198a607eb44bfbc69903a0f1cf2bbdc5ba0aa3f3d9ae3c1c7a3b1696a0b68cf7) /\
  wf_bytes (repeat 0x0b 32) /\ length (repeat 0x0b 32) = 32%nat.
Proof. split; [vm_compute; reflexivity|]. split; [apply wf_bytesb_spec|]; reflexivity. Qed.

(** ** C18  Constant-time comparison is equality *)
Theorem C18_secure_memequal :
  forall a b n, (n <= length a)%nat -> (n <= length b)%nat ->
    secure_memequal a b n = true <-> firstn n a = firstn n b.
Proof. exact secure_memequal_spec. Qed.
Print Assumptions C18_secure_memequal.

Theorem C18_block_equal :
  forall a b,
    length a = 16%nat -> length b = 16%nat -> wf_bytes a -> wf_bytes b -> (block_equal a b = true <-> a = b).
Proof. exact block_equal_spec. Qed.
Print Assumptions C18_block_equal.

Theorem C18_hmac_verify :
  forall mac key mem len,
    wf_bytes key -> length key = 32%nat -> wf_bytes mem -> (len <= length mem)%nat -> N.of_nat len + 64 < 2 ^ 29 ->
    length mac = 32%nat ->
    exists r, hmacsha256_verify mac key mem len = Ok r /\ (r = true <-> mac = Rfc.hmac key (firstn len mem)).
Proof. exact verify_spec. Qed.
Print Assumptions C18_hmac_verify.

Example C18_nonvacuous :
  block_equal (repeat 1 15 ++ [2]) (repeat 1 15 ++ [3]) = false /\
  block_equal (repeat 1 15 ++ [2]) (repeat 1 15 ++ [2]) = true /\
  secure_memequal [1; 2; 255] [1; 2; 7] 3 = false /\ secure_memequal [1; 2; 255] [1; 2; 255] 3 = true.
Proof. repeat split; reflexivity. Qed.

(** ** C51  Hashing reads only the pointers it was given
    Refuted: [sha256_list] reads two entries of its pointer array per 64-byte
    block, including the padding, but the callers' arrays have one entry per 32
    bytes of input.  The pointers read behind the end are never dereferenced, so
    the result is right (C13), but the read itself is out of bounds. *)
Theorem C51_pointer_array_refuted :
  exists mem len out slots,
    (len <= length mem)%nat /\ wf_bytes mem /\
    sha256_list (block_pointers mem len) len = Ok (out, slots) /\
    (length (block_pointers mem len) < slots)%nat.
Proof.
  exists (repeat 0 64), 64%nat. do 2 eexists.
  split; [reflexivity|]. split; [apply wf_bytesb_spec; reflexivity|].
  split; [vm_compute; reflexivity|]. vm_compute. lia.
Qed.
Print Assumptions C51_pointer_array_refuted.

(** Exactly: at most two entries behind the end are read, and none iff the
    length modulo 64 is in 33..55. *)
Theorem C51_pointer_array :
  forall m ins, wf_bytes m -> N.of_nat (length m) < 2 ^ 29 -> pointers_ok m ins ->
    exists out slots, sha256_list ins (length m) = Ok (out, slots) /\
      (slots <= (length m + 31) / 32 <-> 33 <= length m mod 64 <= 55)%nat /\
      ((length m + 31) / 32 <= slots <= (length m + 31) / 32 + 2)%nat.
Proof. exact slots_read. Qed.
Print Assumptions C51_pointer_array.
