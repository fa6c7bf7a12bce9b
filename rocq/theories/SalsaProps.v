From Verif Require Import Base SalsaModel SalsaSpec SalsaCall SalsaMain.
Local Open Scope N_scope.

(** C83: the amd64 code of Salsa20 and Salsa20/12 *)

(** With any number of rounds that is a multiple of four *)
Theorem C83_rounds : forall size q top ko no io co len s, (0 < q)%nat -> 4 * N.of_nat q < 2 ^ 64 -> len <= 2 ^ 38 -> called size top ko no io co len s ->
  exists s', ends size (4 * N.of_nat q) s s' /\ returned (2 * q) top ko no io co len s s'.
Proof. exact salsa. Qed.
Print Assumptions C83_rounds.

Theorem C83_salsa20 : forall size top ko no io co len s, len <= 2 ^ 38 -> called size top ko no io co len s ->
  (exists s', ends size 20 s s') /\ forall s', ends size 20 s s' -> returned 10 top ko no io co len s s'.
Proof. exact salsa20. Qed.
Print Assumptions C83_salsa20.

Theorem C83_salsa2012 : forall size top ko no io co len s, len <= 2 ^ 38 -> called size top ko no io co len s ->
  (exists s', ends size 12 s s') /\ forall s', ends size 12 s s' -> returned 6 top ko no io co len s s'.
Proof. exact salsa2012. Qed.
Print Assumptions C83_salsa2012.

(** Called once more with the same key and nonce on what it made, it gives back the message *)
Theorem C83_inverse : forall rounds, rounds = 20 \/ rounds = 12 ->
  forall size top ko no io co len s s', len <= 2 ^ 38 -> called size top ko no io co len s -> ends size rounds s s' ->
  forall size2 top2 ko2 no2 io2 co2 t t', called size2 top2 ko2 no2 io2 co2 len t -> ends size2 rounds t t' ->
  (forall i, i < 32 -> bytes_from t Key ko2 i = bytes_from s Key ko i) -> (forall i, i < 8 -> bytes_from t Nonce no2 i = bytes_from s Nonce no i) ->
  (forall j, j < len -> bytes_from t In io2 j = bytes_from s' Out co j) ->
  forall j, j < len -> bytes_from t' Out co2 j = bytes_from s In io j.
Proof. exact salsa_inverse. Qed.
Print Assumptions C83_inverse.

(** No two blocks of the key streams of any keys and nonces start from the same words *)
Theorem C83_distinct : forall k k' v v' n n', (forall j, k j < 256) -> (forall j, k' j < 256) -> (forall j, v j < 256) -> (forall j, v' j < 256) ->
  start (le_word k) (le_word v) n = start (le_word k') (le_word v') n' ->
  n = n' /\ (forall i, i < 32 -> k i = k' i) /\ (forall i, i < 8 -> v i = v' i).
Proof. exact start_inj. Qed.
Print Assumptions C83_distinct.

(** The key is not wiped: after every call with a message that is not empty all of its bytes are still below the stack pointer, always in the same places *)
Theorem C83_wiped_refuted : forall rounds, rounds = 20 \/ rounds = 12 -> forall size top ko no io co len s s', 0 < len -> len <= 2 ^ 38 ->
  called size top ko no io co len s -> ends size rounds s s' -> forall i, i < 32 -> bytes_from s' Stack (frame_of top) (place i) = bytes_from s Key ko i.
Proof. exact salsa_left. Qed.
Print Assumptions C83_wiped_refuted.

(** A call of 300 bytes (four blocks at once, then part of a block) with a stack pointer that is not aligned *)
Example C83_met : exists s, called (fun _ => 1000) 1000 3 5 7 11 300 s /\ (forall i, i < 32 -> bytes_from s Key 3 i = i) /\ 300 <= 2 ^ 38.
Proof. exact call_ex. Qed.
