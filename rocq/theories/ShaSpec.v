(** SHA-256 as FIPS 180-4 defines it, HMAC as RFC 2104, HKDF as RFC 5869.
    Written from the standards, without any definition of the model. *)
From Verif Require Import Base.
Local Open Scope N_scope.

Module Fips.

(** ** 3.2, 4.1.2: operations on 32-bit words *)
Definition plus (a b : N) : N := (a + b) mod 2 ^ 32.
Definition ROTR (n x : N) : N := x / 2 ^ n + (x mod 2 ^ n) * 2 ^ (32 - n).
Definition SHR (n x : N) : N := x / 2 ^ n.
Definition complement (x : N) : N := 2 ^ 32 - 1 - x.
Definition xor3 (a b c : N) : N := N.lxor a (N.lxor b c).
Definition Ch (x y z : N) : N := N.lxor (N.land x y) (N.land (complement x) z).
Definition Maj (x y z : N) : N := xor3 (N.land x y) (N.land x z) (N.land y z).
Definition Sigma0 (x : N) : N := xor3 (ROTR 2 x) (ROTR 13 x) (ROTR 22 x).
Definition Sigma1 (x : N) : N := xor3 (ROTR 6 x) (ROTR 11 x) (ROTR 25 x).
Definition sigma0 (x : N) : N := xor3 (ROTR 7 x) (ROTR 18 x) (SHR 3 x).
Definition sigma1 (x : N) : N := xor3 (ROTR 17 x) (ROTR 19 x) (SHR 10 x).

(** ** 4.2.2: the first 32 bits of the fractional parts of the cube roots of the
    first 64 primes; 5.3.3: of the square roots of the first eight primes *)
Fixpoint has_divisor (n : nat) (d : nat) : bool :=
  match d with
  | O | 1%nat => false
  | S d' => (Nat.eqb (Nat.modulo n d) 0 || has_divisor n d')%bool
  end.
Definition is_prime (n : nat) : bool := (Nat.leb 2 n && negb (has_divisor n (n - 1)))%bool.
Definition primes : list N := map N.of_nat (filter is_prime (seq 0 312)).   (* the first 64 *)

(** the greatest [r] with [r * r * r <= n], found bit by bit *)
Fixpoint cube_root_bits (bits : nat) (n r : N) : N :=
  match bits with
  | O => r
  | S b =>
      let r' := r + 2 ^ N.of_nat b in
      cube_root_bits b n (if r' * r' * r' <=? n then r' else r)
  end.
Definition frac_cube_root (p : N) : N := cube_root_bits 40 (p * 2 ^ 96) 0 mod 2 ^ 32.
Definition frac_square_root (p : N) : N := N.sqrt (p * 2 ^ 64) mod 2 ^ 32.
Definition K : list N := map frac_cube_root primes.
Definition H0 : list N := map frac_square_root (firstn 8 primes).

(** ** 5.1.1: padding *)
Definition zero_count (len : nat) : nat := ((119 - len mod 64) mod 64)%nat.
Definition pad (m : bytes) : bytes :=
  m ++ [128] ++ repeat 0 (zero_count (length m)) ++ be_bytes 8 (8 * N.of_nat (length m)).

(** ** 5.2.1: parsing into blocks of 16 words *)
Fixpoint words (n : nat) (b : bytes) : list N :=
  match n with
  | O => []
  | S n => be_val (firstn 4 b) :: words n (skipn 4 b)
  end.
Fixpoint blocks (n : nat) (b : bytes) : list (list N) :=
  match n with
  | O => []
  | S n => words 16 b :: blocks n (skipn 64 b)
  end.

(** ** 6.2.2: the message schedule, most recent word first *)
Fixpoint extend (n : nat) (rw : list N) : list N :=
  match n with
  | O => rw
  | S n =>
      let W j := nth (j - 1) rw 0 in    (* W_{t-j} *)
      extend n (plus (sigma1 (W 2%nat)) (plus (W 7%nat) (plus (sigma0 (W 15%nat)) (W 16%nat))) :: rw)
  end.
Definition message_schedule (M : list N) : list N := rev (extend 48 (rev M)).

Record state := St { sa : N; sb : N; sc : N; sd : N; se : N; sf : N; sg : N; sh : N }.

Definition step (s : state) (kw : N * N) : state :=
  let T1 := plus (sh s) (plus (Sigma1 (se s)) (plus (Ch (se s) (sf s) (sg s)) (plus (fst kw) (snd kw)))) in
  let T2 := plus (Sigma0 (sa s)) (Maj (sa s) (sb s) (sc s)) in
  St (plus T1 T2) (sa s) (sb s) (sc s) (plus (sd s) T1) (se s) (sf s) (sg s).

Definition to_list (s : state) : list N := [sa s; sb s; sc s; sd s; se s; sf s; sg s; sh s].
Definition of_list (l : list N) : state :=
  St (nth 0 l 0) (nth 1 l 0) (nth 2 l 0) (nth 3 l 0) (nth 4 l 0) (nth 5 l 0) (nth 6 l 0) (nth 7 l 0).

Definition compress (H : list N) (M : list N) : list N :=
  map (fun p => plus (fst p) (snd p))
      (combine (to_list (fold_left step (combine K (message_schedule M)) (of_list H))) H).

Definition sha256 (m : bytes) : bytes :=
  flat_map (be_bytes 4) (fold_left compress (blocks (length (pad m) / 64) (pad m)) H0).

End Fips.

Module Rfc.

(** RFC 2104 with B = 64 and a key of at most 64 bytes *)
Definition hmac (key text : bytes) : bytes :=
  let key0 := key ++ repeat 0 (64 - length key) in
  Fips.sha256 (map (N.lxor 0x5c) key0 ++ Fips.sha256 (map (N.lxor 0x36) key0 ++ text)).

(** RFC 5869 2.3: T(i) = HMAC(PRK, T(i-1) | info | i) *)
Fixpoint T (prk info : bytes) (i : nat) : bytes :=
  match i with
  | O => []
  | S j => hmac prk (T prk info j ++ info ++ [N.of_nat i])
  end.

End Rfc.
