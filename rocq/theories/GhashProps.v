(** Property theorems C15, C16 and the GHASH half of C11. *)
From Verif Require Import Base BaseLemmas BufferModel GhashModel GhashSpec GhashProofs.
Local Open Scope N_scope.

(** ** C15  The table-driven GHASH is the GHASH of SP 800-38D *)
Theorem C15_digest_is_ghash :
  forall key shift m mem,
    block key -> padded m mem -> N.of_nat (length m) < 2 ^ 29 ->
    ghash_digest (ghash_init key) shift mem (length m) =
      Ok (be_bytes 16 (Gcm.ghash (be_val key) (Gcm.input shift m))).
Proof. exact ghash_digest_spec. Qed.
Print Assumptions C15_digest_is_ghash.

(** A message whose length in bits does not fit stops the program. *)
Theorem C15_too_long :
  forall key shift m mem,
    block key -> padded m mem -> 2 ^ 29 <= N.of_nat (length m) ->
    ghash_digest (ghash_init key) shift mem (length m) = Bug.
Proof. exact digest_too_long. Qed.
Print Assumptions C15_too_long.

(** The block operation is multiplication of polynomials modulo
    x^128 + x^7 + x^2 + x + 1. *)
Theorem C15_field :
  forall X Y, X < 2 ^ 128 -> Y < 2 ^ 128 ->
    Gcm.poly (Gcm.mult X Y) = Gcm.field_mul (Gcm.poly X) (Gcm.poly Y).
Proof. exact mult_field. Qed.
Print Assumptions C15_field.

(** ** C16  Both implementations give the same tag *)
Theorem C16_implementations_agree :
  forall key shift m mem,
    block key -> padded m mem ->
    pclmul_digest (pclmul_init key) shift mem (length m) =
    ghash_digest (ghash_init key) shift mem (length m).
Proof.
  intros key shift m mem Hk Hp. destruct (N.lt_ge_cases (N.of_nat (length m)) (2 ^ 29)) as [L|L].
  - rewrite (ghash_digest_spec key shift m mem Hk Hp L). exact (pclmul_digest_spec key shift m mem Hk Hp L).
  - rewrite (digest_too_long key shift m mem Hk Hp L). exact (pclmul_too_long key shift m mem Hk Hp L).
Qed.
Print Assumptions C16_implementations_agree.

Theorem C16_digest_is_ghash :
  forall key shift m mem,
    block key -> padded m mem -> N.of_nat (length m) < 2 ^ 29 ->
    pclmul_digest (pclmul_init key) shift mem (length m) =
      Ok (be_bytes 16 (Gcm.ghash (be_val key) (Gcm.input shift m))).
Proof. exact pclmul_digest_spec. Qed.
Print Assumptions C16_digest_is_ghash.

(** ** C11  Different messages give GHASH different input blocks *)
Theorem C11_ghash_input_injective :
  forall shift m1 m2, wf_bytes m1 -> wf_bytes m2 ->
    Gcm.input shift m1 = Gcm.input shift m2 -> m1 = m2.
Proof. exact input_inj. Qed.
Print Assumptions C11_ghash_input_injective.

(** ** The hypotheses hold for test case 2 of the GCM specification (with stray
    bytes behind the padded message) and for a message with a partial block. *)
Definition tc2_key : bytes := be_bytes 16 0x66e94bd4ef8a2c3b884cfa59ca342b2e.
Definition tc2_msg : bytes := be_bytes 16 0x0388dace60b6a392f328c2b971b2fe78.

Example C15_nonvacuous :
  block tc2_key /\ padded tc2_msg (tc2_msg ++ [1; 2; 3]) /\
  ghash_digest (ghash_init tc2_key) false (tc2_msg ++ [1; 2; 3]) 16 =
    Ok (be_bytes 16 0xf38cbb1ad69223dcc3457ae5b6b0f885) /\
  Gcm.mult 0x0388dace60b6a392f328c2b971b2fe78 0x66e94bd4ef8a2c3b884cfa59ca342b2e =
    0x5e2ec746917062882c85b0685353deb7.
Proof.
  split; [split; [apply wf_bytesb_spec|]; vm_compute; reflexivity|].
  split; [exists [1; 2; 3]; split; [|apply wf_bytesb_spec]; vm_compute; reflexivity|].
  split; vm_compute; reflexivity.
Qed.

Example C16_nonvacuous :
  padded [1; 2; 3] ([1; 2; 3] ++ repeat 0 13) /\
  exists tag, ghash_digest (ghash_init tc2_key) true ([1; 2; 3] ++ repeat 0 13) 3 = Ok tag /\
    pclmul_digest (pclmul_init tc2_key) true ([1; 2; 3] ++ repeat 0 13) 3 = Ok tag /\
    ghash_digest (ghash_init tc2_key) false ([1; 2; 3] ++ repeat 0 13) 3 <> Ok tag.
Proof.
  split; [exists []; split; [|apply wf_bytesb_spec]; vm_compute; reflexivity|].
  eexists. split; [vm_compute; reflexivity|]. split; [vm_compute; reflexivity|]. vm_compute. discriminate.
Qed.

(** Trailing zeros matter although padding is zeros too. *)
Example C11_ghash_nonvacuous :
  Gcm.message_blocks [1] = Gcm.message_blocks [1; 0] /\ Gcm.input true [1] <> Gcm.input true [1; 0].
Proof. split; [reflexivity|]. vm_compute. discriminate. Qed.
