(** Salsa20 (D. J. Bernstein, "Salsa20 specification", 2005), with any number of rounds: independent of the assembly code *)
From Verif Require Import Base.
Local Open Scope N_scope.

Definition rotl (n a : N) : N := (a * 2 ^ n) mod 2 ^ 32 + a / 2 ^ (32 - n).
(** x[i] ^= rotl(x[j] + x[k], n) *)
Fixpoint replace {A : Type} (i : nat) (v : A) (l : list A) {struct l} : list A :=
  match l, i with [], _ => [] | _ :: r, O => v :: r | y :: r, S i => y :: replace i v r end.
Definition mix (t : nat * nat * nat * N) (y : list N) : list N :=
  let '(i, j, k, n) := t in replace i (N.lxor (nth i y 0) (rotl n ((nth j y 0 + nth k y 0) mod 2 ^ 32))) y.
(** quarterround, columnround, rowround *)
Definition quarter (a b c d : nat) : list (nat * nat * nat * N) := [(b, a, d, 7); (c, b, a, 9); (d, c, b, 13); (a, d, c, 18)].
Definition double : list (nat * nat * nat * N) :=
  (quarter 0 4 8 12 ++ quarter 5 9 13 1 ++ quarter 10 14 2 6 ++ quarter 15 3 7 11 ++
   quarter 0 1 2 3 ++ quarter 5 6 7 4 ++ quarter 10 11 8 9 ++ quarter 15 12 13 14)%nat.
Definition doubleround (y : list N) : list N := fold_left (fun y t => mix t y) double y.
Fixpoint iterate {A : Type} (n : nat) (f : A -> A) (y : A) : A := match n with O => y | S n => iterate n f (f y) end.

(** The words that a block starts from: the key and the nonce as words, the number of the block *)
Definition start (key nonce : nat -> N) (n : N) : list N :=
  [1634760805; key 0%nat; key 1%nat; key 2%nat; key 3%nat; 857760878; nonce 0%nat; nonce 1%nat; n mod 2 ^ 32; n / 2 ^ 32;
   2036477234; key 4%nat; key 5%nat; key 6%nat; key 7%nat; 1797285236].
(** Word [i] of the key stream of block [n] *)
Definition word (doubles : nat) (key nonce : nat -> N) (n : N) (i : nat) : N :=
  let y := start key nonce n in (nth i y 0 + nth i (iterate doubles doubleround y) 0) mod 2 ^ 32.
(** Byte [j] of the key stream; keys and nonces are strings of bytes, little-endian words *)
Definition le_word (b : N -> N) (i : nat) : N :=
  let a := 4 * N.of_nat i in b a + 2 ^ 8 * b (a + 1) + 2 ^ 16 * b (a + 2) + 2 ^ 24 * b (a + 3).
Definition stream (doubles : nat) (key nonce : N -> N) (j : N) : N :=
  word doubles (le_word key) (le_word nonce) (j / 64) (N.to_nat (j mod 64 / 4)) / 2 ^ (8 * (j mod 4)) mod 256.
