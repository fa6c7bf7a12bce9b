(** Model of both GHASH implementations: crypto/mac/ghash/builtin/ghash_builtin.c
    and crypto/mac/ghash/pclmulqdq/ghash_pclmulqdq_impl.c.
    The memory handed to [digest] must cover all blocks read, else [UB]. *)
From Verif Require Import Base BufferModel MethodModel.
Local Open Scope N_scope.

(** ** ghash_builtin.c *)

(** [shr], L36-47: returns the shifted block and the bits shifted out *)
Fixpoint shr_loop (n c : N) (b : bytes) : bytes * N :=
  match b with
  | [] => ([], c)
  | x :: b =>
      let c2 := N.shiftl x (8 - n) mod 256 in
      let (o, c') := shr_loop n c2 b in
      (N.lor (N.shiftr x n) c :: o, c')
  end.
Definition shr (n : N) (b : bytes) : bytes * N :=
  let (o, c) := shr_loop n 0 b in (o, N.shiftr c (8 - n)).

Definition zero_block : bytes := repeat 0 16.
(** [r], L32 *)
Definition r_block : bytes := 0xe1 :: repeat 0 15.

(** [table[i][j]] *)
Definition entry (t : list (list bytes)) (i : nat) (j : N) : bytes :=
  nth (N.to_nat j) (nth i t []) zero_block.

(** [mulH_a], L50-60; [i] counts the bytes of [x] done *)
Fixpoint mulH_loop (i : nat) (x : bytes) (t : list (list bytes)) (out : bytes) : bytes :=
  match x with
  | [] => out
  | b :: x =>
      let out := xor_bytes out (entry t (2 * i) (N.shiftr b 4)) in
      let out := xor_bytes out (entry t (2 * i + 1) (N.land b 0xf)) in
      mulH_loop (S i) x t out
  end.
Definition mulH (t : list (list bytes)) (x : bytes) : bytes := mulH_loop 0 x t zero_block.

(** [Hbase] and [Rbase], L69-82 *)
Definition next_Hbase (h : bytes) : bytes :=
  let (s, c) := shr 1 h in if N.eqb c 0 then s else xor_bytes s r_block.
Definition next_Rbase (r : bytes) : bytes := fst (shr 1 r).
Definition bases (next : bytes -> bytes) (b : bytes) : list bytes :=
  [b; next b; next (next b); next (next (next b))].

(** an entry [i] of [H[0]] or [R], L88-96 *)
Definition combine_bases (bs : list bytes) (i : N) : bytes :=
  fold_left (fun acc j => if N.eqb (N.land i (N.shiftr 8 (N.of_nat j))) 0 then acc
                          else xor_bytes acc (nth j bs zero_block)) (seq 0 4) zero_block.
Definition row0 (bs : list bytes) : list bytes := map (fun i => combine_bases bs (N.of_nat i)) (seq 0 16).

(** one further row, L98-105 *)
Definition next_row (R row : list bytes) : list bytes :=
  map (fun b => let (s, c) := shr 4 b in xor_bytes s (nth (N.to_nat c) R zero_block)) row.
Fixpoint rows (n : nat) (R row : list bytes) : list (list bytes) :=
  match n with
  | O => []
  | S n => row :: rows n R (next_row R row)
  end.

(** [ghash_init], L63-108 (without the allocation) *)
Definition ghash_init (key : bytes) : list (list bytes) :=
  rows 32 (row0 (bases next_Rbase r_block)) (row0 (bases next_Hbase key)).

(** [make_size], L110-123 (and L150-163 of the other implementation) *)
Definition make_size (len : nat) (shift : bool) : res bytes :=
  if 2 ^ 29 <=? N.of_nat len then Bug
  else
    let size := be_bytes 4 (N.shiftl (N.of_nat len) 3 mod 2 ^ 32) in
    Ok (if shift then repeat 0 4 ++ size ++ repeat 0 8 else repeat 0 12 ++ size).

(** [ghash_digest], L126-144 *)
Fixpoint ghash_loop (n i : nat) (t : list (list bytes)) (mem out : bytes) : res bytes :=
  match n with
  | O => Ok out
  | S n =>
      do b <- read mem (16 * i) 16;
      ghash_loop n (S i) t mem (mulH t (xor_bytes out b))
  end.
Definition ghash_digest (t : list (list bytes)) (shift : bool) (mem : bytes) (len : nat) : res bytes :=
  do out <- ghash_loop ((len + 15) / 16) 0 t mem zero_block;
  do size <- make_size len shift;
  Ok (mulH t (xor_bytes out size)).

(** ** ghash_pclmulqdq_impl.c
    A vector is the number its 16 bytes stand for (least significant byte first).
    Joined lanes do not overlap, so they are joined with [lxor]. *)
Definition lane_lo (v : N) : N := N.land v (N.ones 64).
Definition lane_hi (v : N) : N := N.land (N.shiftr v 64) (N.ones 64).
Definition join (hi lo : N) : N := N.lxor (N.shiftl hi 64) lo.

(** the SSE2/SSSE3/PCLMUL instructions, from Intel's description *)
Definition mm_slli_epi64 (v a : N) : N :=
  join (N.land (N.shiftl (lane_hi v) a) (N.ones 64)) (N.land (N.shiftl (lane_lo v) a) (N.ones 64)).
Definition mm_srli_epi64 (v a : N) : N := join (N.shiftr (lane_hi v) a) (N.shiftr (lane_lo v) a).
Definition mm_slli_si128 (v n : N) : N := N.land (N.shiftl v (8 * n)) (N.ones 128).
Definition mm_srli_si128 (v n : N) : N := N.shiftr (N.land v (N.ones 128)) (8 * n).
Fixpoint clmul (n : nat) (a b : N) : N :=
  match n with
  | O => 0
  | S n => N.lxor (clmul n a b) (if N.testbit b (N.of_nat n) then N.shiftl a (N.of_nat n) else 0)
  end.
Definition mm_clmulepi64 (a b imm : N) : N :=
  clmul 64 (if N.testbit imm 0 then lane_hi a else lane_lo a)
           (if N.testbit imm 4 then lane_hi b else lane_lo b).
Definition mm_shuffle_epi8 (v : N) (mask : bytes) : N :=
  le_val (map (fun m => if N.testbit m 7 then 0 else nth (N.to_nat (N.land m 15)) (le_bytes 16 v) 0) mask).

(** L41-66 *)
Definition vshl (v a : N) : N := N.lxor (mm_slli_epi64 v a) (mm_slli_si128 (mm_srli_epi64 v (64 - a)) 8).
Definition vshr (v a : N) : N := N.lxor (mm_srli_epi64 v a) (mm_srli_si128 (mm_slli_epi64 v (64 - a)) 8).
Definition byteswap (v : N) : N :=
  mm_shuffle_epi8 v [15; 14; 13; 12; 11; 10; 9; 8; 7; 6; 5; 4; 3; 2; 1; 0].

(** [gmul], L92-147 *)
Definition gmul (v h : N) : N :=
  let z0 := mm_clmulepi64 v h 0x11 in
  let z2 := mm_clmulepi64 v h 0x00 in
  let tmpv := N.lxor (mm_srli_si128 v 8) v in
  let tmph := N.lxor (mm_srli_si128 h 8) h in
  let z1 := N.lxor (N.lxor (mm_clmulepi64 tmpv tmph 0x00) z0) z2 in
  let pl := N.lxor z0 (mm_srli_si128 z1 8) in
  let ph := N.lxor z2 (mm_slli_si128 z1 8) in
  let tmp := mm_srli_si128 (mm_srli_epi64 ph 63) 8 in
  let pl := N.lxor (vshl pl 1) tmp in
  let ph := vshl ph 1 in
  let b := mm_slli_epi64 (mm_slli_si128 ph 8) 62 in
  let c := mm_slli_epi64 (mm_slli_si128 ph 8) 57 in
  let d := N.lxor ph (N.lxor b c) in
  N.lxor (N.lxor (N.lxor (N.lxor pl d) (vshr d 1)) (vshr d 2)) (vshr d 7).

(** [fastd_ghash_pclmulqdq_init], L70-82 *)
Definition pclmul_init (key : bytes) : N := byteswap (le_val key).

(** [fastd_ghash_pclmulqdq_digest], L166-187 *)
Fixpoint pclmul_loop (n i : nat) (h : N) (mem : bytes) (v : N) : res N :=
  match n with
  | O => Ok v
  | S n =>
      do b <- read mem (16 * i) 16;
      pclmul_loop n (S i) h mem (gmul (N.lxor v (byteswap (le_val b))) h)
  end.
Definition pclmul_digest (h : N) (shift : bool) (mem : bytes) (len : nat) : res bytes :=
  do v <- pclmul_loop ((len + 15) / 16) 0 h mem 0;
  do size <- make_size len shift;
  let v := gmul (N.lxor v (byteswap (le_val size))) h in
  Ok (le_bytes 16 (byteswap v)).
