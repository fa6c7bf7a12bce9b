(** UHASH-128 written from RFC 4418 section 5.  Strings are byte lists; [be_val]
    is str2uint.  Index conventions: the RFC counts from 1, this file from 0. *)
From Verif Require Import Base.
Local Open Scope N_scope.

Module Umac.

Definition prime36 : N := 2 ^ 36 - 5.
Definition prime64 : N := 2 ^ 64 - 59.

Definition substr (s : bytes) (off n : nat) : bytes := firstn n (skipn off s).

(** ZEROPAD(S, n): to the nearest positive multiple of n bytes *)
Definition zeropad (s : bytes) (n : nat) : bytes :=
  s ++ repeat 0 (Nat.max ((length s + n - 1) / n) 1 * n - length s).

(** ENDIAN-SWAP(S): reverses the bytes of every four-byte word; words of the result *)
Definition word_of (M : bytes) (j : nat) : N := be_val (rev (substr M (4 * j) 4)).
Definition key_word (K : bytes) (j : nat) : N := be_val (substr K (4 * j) 4).

(** 5.2.2 NH *)
Definition add32 (a b : N) : N := (a + b) mod 2 ^ 32.
Definition add64 (a b : N) : N := (a + b) mod 2 ^ 64.
Definition nh_term (K M : bytes) (i q : nat) : N :=
  (add32 (word_of M (i + q)) (key_word K (i + q)) * add32 (word_of M (i + q + 4)) (key_word K (i + q + 4))) mod 2 ^ 64.
Definition NH (K M : bytes) : N :=
  fold_left (fun Y g => fold_left (fun Y q => add64 Y (nh_term K M (8 * g) q)) [0; 1; 2; 3]%nat Y)
    (seq 0 (length M / 32)) 0.

(** 5.2.1 L1-HASH: the list of 8-byte results, as numbers *)
Fixpoint split_chunks (n : nat) (M : bytes) : list bytes :=
  match n with
  | O => []
  | S n => firstn 1024 M :: split_chunks n (skipn 1024 M)
  end.
Definition chunks (M : bytes) : list bytes := split_chunks (Nat.max ((length M + 1023) / 1024) 1) M.
Definition L1_HASH (K M : bytes) : list N :=
  map (fun c => add64 (NH K (zeropad c 32)) (8 * N.of_nat (length c))) (chunks M).

(** 5.3.3 POLY with wordbits 64 *)
Definition poly_step (maxwordrange k y m : N) : N :=
  if maxwordrange <=? m then
    let y := (k * y + (prime64 - 1)) mod prime64 in
    (k * y + (m - (2 ^ 64 - prime64))) mod prime64
  else (k * y + m) mod prime64.
Definition POLY64 (maxwordrange k : N) (M : list N) : N := fold_left (poly_step maxwordrange k) M 1.

(** 5.3.1 L2-HASH for at most 2^17 bytes, i.e. 2^14 words *)
Definition L2_HASH (K : bytes) (M : list N) : N :=
  let k64 := N.land (be_val (substr K 0 8)) 0x01ffffff01ffffff in
  POLY64 (2 ^ 64 - 2 ^ 32) k64 M.

(** 5.4.1 L3-HASH; [M] is the 16-byte string as a number *)
Definition L3_HASH (K1 K2 : bytes) (M : N) : N :=
  let Ms := be_bytes 16 M in
  let y := fold_left (fun y i => (y + be_val (substr Ms (2 * i) 2) * (be_val (substr K1 (8 * i) 8) mod prime36)) mod prime36)
             (seq 0 8) 0 in
  N.lxor (y mod 2 ^ 32) (be_val K2).

(** 5.1 UHASH with four iterations; the four keys are the parts of [K] in the
    order in which the RFC derives them *)
Definition iteration (K M : bytes) (i : nat) : bytes :=
  let L1Key := substr (substr K 0 1072) (16 * i) 1024 in
  let L2Key := substr (substr K 1072 96) (24 * i) 24 in
  let L3Key1 := substr (substr K 1168 256) (64 * i) 64 in
  let L3Key2 := substr (substr K 1424 16) (4 * i) 4 in
  let A := L1_HASH L1Key M in
  let B := if Nat.leb (length M) 1024 then nth 0 A 0 else L2_HASH L2Key A in
  be_bytes 4 (L3_HASH L3Key1 L3Key2 B).
Definition UHASH (K M : bytes) : bytes := flat_map (iteration K M) [0; 1; 2; 3]%nat.

(** What the hash sees of a message: padded chunks with their lengths *)
Definition input (M : bytes) : list (bytes * nat) := map (fun c => (zeropad c 32, length c)) (chunks M).

End Umac.
