(** What is assumed of libuecc, and the shared secret as an element of the group *)
From Verif Require Import Base KexModel.

(** Points are a commutative group; the generator has the given odd order, which is larger than
    2^252 as for Curve25519; packing can be undone; scalar arithmetic is correct modulo the
    order; hashes are 32 bytes *)
Record laws (K : kex) : Prop := mk_laws {
  l_assoc : forall p q r, k_add K p (k_add K q r) = k_add K (k_add K p q) r;
  l_comm : forall p q, k_add K p q = k_add K q p;
  l_zero : forall p, k_add K (k_zero K) p = p;
  l_is_zero : forall p, k_is_zero K p = true <-> p = k_zero K;
  l_odd : (k_order K mod 2 = 1)%N;
  l_large : (2 ^ 252 < k_order K < 2 ^ 253)%N;
  l_order : forall n, smul K n (k_base K) = k_zero K <-> (n mod k_order K = 0)%N;
  l_store : forall p, k_load K (k_store K p) = Some p;
  l_store_length : forall p, length (k_store K p) = 32;
  l_gf_add : forall a b, (k_gf_add K a b mod k_order K = (a + b) mod k_order K /\ k_gf_add K a b < 2 ^ 256)%N;
  l_gf_mult : forall a b, (k_gf_mult K a b mod k_order K = (a * b) mod k_order K /\ k_gf_mult K a b < 2 ^ 256)%N;
  l_hash : forall m, length (k_hash K m) = 32 /\ wf_bytes (k_hash K m)
}.

(** 32 bytes *)
Definition word256 (l : bytes) : Prop := length l = 32 /\ wf_bytes l.

(** The two factors of the exchange: 128 bits each, the highest set *)
Definition factor_d (h : bytes) : N := (2 ^ 127 + le_val (firstn 16 h) mod 2 ^ 127)%N.
Definition factor_e (h : bytes) : N := (2 ^ 127 + le_val (skipn 16 h) mod 2 ^ 127)%N.

(** The shared secret of FHMQV for the secret scalars: (d a + x)(e b + y) times the generator *)
Definition fhmqv (K : kex) (a b x y : N) : k_pt K :=
  let store n := k_store K (smul K n (k_base K)) in
  let h := k_hash K (store y ++ store x ++ store b ++ store a) in
  smul K ((factor_d h * a + x) * (factor_e h * b + y)) (k_base K).

(** A secret key as used for a handshake *)
Definition ephemeral (random : bytes) : N := (2 ^ 254 + 8 * ((le_val random / 8) mod 2 ^ 251))%N.

(** The result of a key exchange: the shared secret and the handshake key, or failure if the
    secret is the identity *)
Definition exchanged (K : kex) (a b x y : N) (A B X Y : bytes) : option (bytes * bytes) :=
  let p := fhmqv K a b x y in
  if k_is_zero K p then None
  else Some (k_store K p, k_expand K 1 (k_extract K (repeat 0%N 32) (k_store K p)) (A ++ B ++ X ++ Y)).
