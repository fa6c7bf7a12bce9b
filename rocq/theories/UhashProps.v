(** Property theorems C17 and the UHASH half of C11. *)
From Verif Require Import Base BaseLemmas BufferModel GhashSpec GhashProofs UhashModel UhashSpec UhashArith UhashProofs.
Local Open Scope N_scope.

(** ** C17  UHASH follows RFC 4418 *)
Theorem C17_uhash_is_rfc4418 :
  forall key m mem,
    wf_bytes key -> length key = 1440%nat -> padded m mem -> N.of_nat (length m) <= 2 ^ 24 ->
    uhash_digest (uhash_init key) mem (length m) = Ok (Umac.UHASH key m).
Proof. exact uhash_digest_spec. Qed.
Print Assumptions C17_uhash_is_rfc4418.

(** Beyond the part of the RFC which is implemented, the program stops instead of
    returning a wrong tag. *)
Theorem C17_too_long :
  forall key m mem,
    padded m mem -> 2 ^ 24 < N.of_nat (length m) ->
    uhash_digest (uhash_init key) mem (length m) = Bug.
Proof. exact uhash_too_long. Qed.
Print Assumptions C17_too_long.

(** The step of the polynomial layer for every 64-bit word, including the words
    that need the marker. *)
Theorem C17_poly_step :
  forall Y K m,
    Y < 2 ^ 64 -> m < 2 ^ 64 -> short_key K -> l2add Y K m = Umac.poly_step (2 ^ 64 - 2 ^ 32) K Y m.
Proof. exact l2add_spec. Qed.
Print Assumptions C17_poly_step.

(** ** C11  Different messages give UHASH different padded chunks or lengths *)
Theorem C11_uhash_input_injective :
  forall m1 m2, Umac.input m1 = Umac.input m2 -> m1 = m2.
Proof. exact uhash_input_inj. Qed.
Print Assumptions C11_uhash_input_injective.

(** ... and these are what the first layer hashes. *)
Theorem C11_uhash_hashes_input :
  forall K m,
    Umac.L1_HASH K m =
    map (fun i => Umac.add64 (Umac.NH K (fst i)) (8 * N.of_nat (snd i))) (Umac.input m).
Proof. intros K m. unfold Umac.L1_HASH, Umac.input. rewrite map_map. reflexivity. Qed.
Print Assumptions C11_uhash_hashes_input.

(** ** Concrete cases: an empty message, one chunk, two chunks, the marker *)
Definition ex_key : bytes := map (fun i => (N.of_nat i * N.of_nat i * 37 + 11 * N.of_nat i + 255) mod 256) (seq 0 1440).
Definition ex_msg (n : nat) : bytes := map (fun i => (N.of_nat i * 7 + 5) mod 256) (seq 0 n).

Lemma ex_padded n : padded (ex_msg n) (Gcm.pad16 (ex_msg n)).
Proof.
  exists []. rewrite app_nil_r. split; [reflexivity|]. unfold Gcm.pad16. apply wf_app. split.
  - apply Forall_forall. intros x Hx. apply in_map_iff in Hx as [i [<- _]]. apply N.mod_lt. discriminate.
  - apply Forall_forall. intros x Hx. apply repeat_spec in Hx. subst x. reflexivity.
Qed.

Example C17_nonvacuous :
  wf_bytes ex_key /\ length ex_key = 1440%nat /\ padded (ex_msg 1030) (Gcm.pad16 (ex_msg 1030)) /\
  (exists d0 d1, uhash_digest (uhash_init ex_key) [] 0 = Ok d0 /\
    uhash_digest (uhash_init ex_key) (Gcm.pad16 (ex_msg 1030)) 1030 = Ok d1 /\ d0 <> d1) /\
  l2add 3 (2 ^ 33 + 5) (2 ^ 64 - 1) <> l2add 3 (2 ^ 33 + 5) (2 ^ 64 - 1 - 59).
Proof.
  split; [apply wf_bytesb_spec; vm_compute; reflexivity|]. split; [vm_compute; reflexivity|].
  split; [apply ex_padded|]. split.
  - eexists. eexists. split; [vm_compute; reflexivity|]. split; [vm_compute; reflexivity|]. vm_compute. discriminate.
  - vm_compute. discriminate.
Qed.

Example C11_uhash_nonvacuous :
  Umac.zeropad [1] 32 = Umac.zeropad [1; 0] 32 /\ Umac.input [1] <> Umac.input [1; 0].
Proof. split; [reflexivity|]. vm_compute. discriminate. Qed.
