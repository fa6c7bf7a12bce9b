(** Model of crypto/mac/uhash/builtin/uhash_builtin.c. *)
From Verif Require Import Base BufferModel.
Local Open Scope N_scope.

Definition U32 : N := 4294967296.
Definition U64 : N := 18446744073709551616.

(** the state, L22-27 *)
Record uhash_state := UState {
  L1Key : list N;     (* uint32_t[268] *)
  L2Key : list N;     (* uint64_t[12] *)
  L3Key1 : list N;    (* uint64_t[32] *)
  L3Key2 : list N     (* uint32_t[4] *)
}.

(** L48-66; a [uint32_2_t] is a pair (h, l) *)
Definition split64 (x : N) : N * N := (N.shiftr x 32, x mod U32).
Definition join64 (h l : N) : N := N.lor (N.shiftl h 32) l.
Definition mul64 (a b : N) : N := a * b mod U64.
Definition sel (a b s : N) : N :=
  let s1 := (s + (U64 - 1)) mod U64 in
  N.lxor b (N.land s1 (N.lxor a b)).

(** L69-76 *)
Definition mod_p36 (a : N) : N :=
  let mask := 0xfffffffff in
  let a1 := (N.land a mask + 5 * N.shiftr a 36) mod U64 in
  let a2 := (a1 + 5) mod U64 in
  sel a1 (N.land a2 mask) (N.shiftr a2 36).

(** [be32toh(key32[i])] *)
Definition key32 (key : bytes) (i : nat) : N := be_val (slice key (4 * i) 4).

(** [uhash_init], L80-107 *)
Definition uhash_init (key : bytes) : uhash_state :=
  UState
    (map (fun i => key32 key i) (seq 0 268))
    (map (fun i => join64 (N.land (key32 key (268 + 2 * i)) 0x01ffffff)
                          (N.land (key32 key (268 + 2 * i + 1)) 0x01ffffff)) (seq 0 12))
    (map (fun i => mod_p36 (join64 (key32 key (292 + 2 * i)) (key32 key (292 + 2 * i + 1)))) (seq 0 32))
    (map (fun i => key32 key (356 + i)) (seq 0 4)).

Definition nthN (l : list N) (i : nat) : N := nth i l 0.

(** one product of [nh_round] for iteration [j], L119-122; [K] starts at word [i] *)
Definition nh_mul (K b : list N) (i j q : nat) : N :=
  mul64 ((nthN b q + nthN K (i + 4 * j + q)) mod U32)
        ((nthN b (q + 4) + nthN K (i + 4 * j + q + 4)) mod U32).
Definition nh_lane (K b : list N) (i j : nat) (y : N) : N :=
  let y := (y + nh_mul K b i j 0) mod U64 in
  let y := (y + nh_mul K b i j 1) mod U64 in
  let y := (y + nh_mul K b i j 2) mod U64 in
  (y + nh_mul K b i j 3) mod U64.
(** [nh_round], L115-124; an index outside the key array is [UB] *)
Definition nh_round (K : list N) (i : nat) (Y b : list N) : res (list N) :=
  if Nat.leb (i + 20) (length K) then Ok (map (fun j => nh_lane K b i j (nthN Y j)) (seq 0 4)) else UB.

(** [le32toh(M[..])] for [n] words at byte [off] *)
Fixpoint load_words (n : nat) (mem : bytes) (off : nat) : res (list N) :=
  match n with
  | O => Ok []
  | S n =>
      do d <- read mem off 4;
      do r <- load_words n mem (off + 4);
      Ok (le_val d :: r)
  end.

(** [nh], L131-155; [base] is the byte offset of [M] *)
Fixpoint nh_loop (fuel i blocks : nat) (K : list N) (mem : bytes) (base : nat) (Y : list N) : res (nat * list N) :=
  if Nat.ltb i (blocks - 4) then
    match fuel with
    | O => Bug
    | S fuel =>
        do b <- load_words 8 mem (base + 4 * i);
        do Y <- nh_round K i Y b;
        nh_loop fuel (i + 8) blocks K mem base Y
    end
  else Ok (i, Y).
Definition nh (K : list N) (mem : bytes) (base length : nat) : res (list N) :=
  let y0 := 8 * N.of_nat length mod U64 in
  let blocks := Nat.max ((length + 3) / 4) 4 in
  do (i, Y) <- nh_loop blocks 0 blocks K mem base [y0; y0; y0; y0];
  if Nat.ltb i blocks then
    do b <- load_words 4 mem (base + 4 * i);
    nh_round K i Y (b ++ [0; 0; 0; 0])
  else Ok Y.

(** [l1hash], L162-170: [n] blocks left, the next one is [i] *)
Fixpoint l1_loop (n i : nat) (K : list N) (mem : bytes) (length : nat) : res (list (list N)) :=
  match n with
  | O => Ok []
  | S n =>
      do y <- nh K mem (1024 * i) (Nat.min length 1024);
      do r <- l1_loop n (S i) K mem (length - 1024);
      Ok (y :: r)
  end.
Definition l1hash (K : list N) (mem : bytes) (length : nat) : res (list (list N)) :=
  l1_loop (Nat.max ((length + 1023) / 1024) 1) 0 K mem length.

(** L178-187 *)
Definition mul128 (a b : N * N) : N * N :=
  let lo := split64 (mul64 (snd a) (snd b)) in
  let mid := split64 (((mul64 (snd a) (fst b) + mul64 (fst a) (snd b)) mod U64 + fst lo) mod U64) in
  let hi := (mul64 (fst a) (fst b) + fst mid) mod U64 in
  (hi, join64 (snd mid) (snd lo)).

(** L194-202 *)
Definition add_p64 (a b : N) : N :=
  let c1 := (a + b) mod U64 in
  let a := (a + 59) mod U64 in
  let c2 := (a + b) mod U64 in
  let s := N.shiftr (N.lor (N.land a b) (N.land (N.lor a b) (N.lxor c2 (U64 - 1)))) 63 in
  sel c1 c2 s.

(** L210-214 *)
Definition mul_p64 (a b : N) : N :=
  let m := mul128 (split64 a) (split64 b) in
  add_p64 (fst m * 59 mod U64) (snd m).

(** L217-232 *)
Definition l2add (Y K m : N) : N :=
  let Y := mul_p64 Y K in
  let Y1 := add_p64 Y 0xffffffffffffffc4 in
  let Y1 := mul_p64 Y1 K in
  let Y1 := add_p64 Y1 ((m + (U64 - 59)) mod U64) in
  let Y2 := add_p64 Y m in
  let s := N.shiftr (N.shiftr m 32 + 1) 32 in
  sel Y2 Y1 s.

(** [l2hash], L240-253 *)
Definition l2_step (K : list N) (y m : list N) : list N :=
  map (fun j => l2add (nthN y j) (nthN K (3 * j)) (nthN m j)) (seq 0 4).
Definition l2hash (K : list N) (M : list (list N)) : res (list N) :=
  if Nat.ltb (128 * 128) (length M) then Bug
  else Ok (fold_left (l2_step K) M [1; 1; 1; 1]).

(** [l3hash], L256-266: [K1] starts at entry [k] *)
Definition l3hash (K1 : list N) (k : nat) (K2 M : N) : N :=
  let term i := (N.shiftr M (16 * (3 - N.of_nat (i mod 4)))) mod 65536 * nthN K1 (k + i) mod U64 in
  let y := (0 + term 4%nat) mod U64 in
  let y := (y + term 5%nat) mod U64 in
  let y := (y + term 6%nat) mod U64 in
  let y := (y + term 7%nat) mod U64 in
  N.lxor (mod_p36 y) K2 mod U32.

(** [uhash_digest], L271-297 *)
Definition uhash_digest (s : uhash_state) (mem : bytes) (length : nat) : res bytes :=
  let blocks := Nat.max ((length + 1023) / 1024) 1 in
  do A <- l1hash (L1Key s) (if Nat.eqb length 0 then repeat 0 16 else mem) length;
  do B <- (if Nat.leb blocks 1 then Ok (nth 0 A []) else l2hash (L2Key s) A);
  Ok (flat_map (fun i => be_bytes 4 (l3hash (L3Key1 s) (8 * i) (nthN (L3Key2 s) i) (nthN B i))) (seq 0 4)).
