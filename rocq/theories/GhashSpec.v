(** GHASH as in NIST SP 800-38D, and the polynomial ring behind it.
    A block is the number whose binary digits, most significant first, are the
    bits x_0 ... x_127 of the standard. *)
From Verif Require Import Base.
Local Open Scope N_scope.

Module Gcm.

Definition R : N := 0xe1 * 2 ^ 120.
Definition bit (X : N) (i : nat) : bool := N.testbit X (127 - N.of_nat i).

(** 6.3, Algorithm 1: the multiplication on blocks *)
Definition next_V (V : N) : N :=
  if N.odd V then N.lxor (V / 2) R else V / 2.
Fixpoint mult_steps (X : N) (i : nat) (fuel : nat) (Z V : N) : N :=
  match fuel with
  | O => Z
  | S fuel => mult_steps X (S i) fuel (if bit X i then N.lxor Z V else Z) (next_V V)
  end.
Definition mult (X Y : N) : N := mult_steps X 0 128 0 Y.

(** 6.4, Algorithm 2 *)
Definition ghash (H : N) (blocks : list N) : N :=
  fold_left (fun Y X => mult (N.lxor Y X) H) blocks 0.

(** the message, padded with zeros to whole blocks *)
Definition pad16 (m : bytes) : bytes := m ++ repeat 0 ((16 - length m mod 16) mod 16).
Fixpoint split_blocks (n : nat) (b : bytes) : list N :=
  match n with
  | O => []
  | S n => be_val (firstn 16 b) :: split_blocks n (skipn 16 b)
  end.
Definition message_blocks (m : bytes) : list N := split_blocks (length (pad16 m) / 16) (pad16 m).

(** 7.1 steps 4-5: the block of the two lengths in bits *)
Definition length_block (lenA lenC : nat) : N := 8 * N.of_nat lenA * 2 ^ 64 + 8 * N.of_nat lenC.

(** What GCM hashes when only ciphertext is given, and when only additional data
    is given. *)
Definition input (as_aad : bool) (m : bytes) : list N :=
  message_blocks m ++ [if as_aad then length_block (length m) 0 else length_block 0 (length m)].

(** ** The field: polynomials over GF(2) modulo x^128 + x^7 + x^2 + x + 1 *)
(** coefficients: bit [i] of the number is the coefficient of x^i *)
Fixpoint poly_mul (n : nat) (a b : N) : N :=
  match n with
  | O => 0
  | S n => N.lxor (if N.odd b then a else 0) (2 * poly_mul n a (b / 2))
  end.
Definition modulus : N := 2 ^ 128 + 2 ^ 7 + 2 ^ 2 + 2 + 1.
(** long division: clears the bits [n + 127] ... [128] *)
Fixpoint poly_mod (n : nat) (a : N) : N :=
  match n with
  | O => a
  | S n => poly_mod n (if N.testbit a (128 + N.of_nat n) then N.lxor a (modulus * 2 ^ N.of_nat n) else a)
  end.
Definition field_mul (a b : N) : N := poly_mod 127 (poly_mul 128 a b).

(** the polynomial of a block: x_i, the bit [127 - i], is the coefficient of x^i *)
Fixpoint poly_bits (n : nat) (X : N) : N :=
  match n with
  | O => 0
  | S n => N.lxor (poly_bits n X) (if bit X n then 2 ^ N.of_nat n else 0)
  end.
Definition poly (X : N) : N := poly_bits 128 X.

End Gcm.
