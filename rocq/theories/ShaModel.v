(** SHA-256, HMAC and HKDF, and the constant-time comparisons.
    Source: src/sha256.c, src/hkdf_sha256.c, src/hkdf_sha256.h, src/crypto.h.

    32-bit words are [N] below 2^32; every operation that can leave this range
    is reduced explicitly.  Memory is bytes; [ntohl(in[i])] is the big-endian
    value of four bytes. *)
From Verif Require Import Base BufferModel.
Local Open Scope N_scope.

Definition W32 : N := 4294967296.
Definition add32 (a b : N) : N := (a + b) mod W32.
Definition not32 (a : N) : N := N.lxor a (W32 - 1).

(** [rotr], sha256.c L25-27 *)
Definition rotr (x r : N) : N := N.lor (N.shiftr x r) (N.shiftl x (32 - r) mod W32).

(** [copy_words], sha256.c L34-51.  The pointer is the memory it points to;
    [None] is a pointer with unspecified value.  [n] counts the words to do. *)
Fixpoint copy_words (n i : nat) (inp : option bytes) (left : Z) : res (list N * Z) :=
  match n with
  | O => Ok ([], left)
  | S n =>
      do w <- (if (4 <=? left)%Z then
                 match inp with
                 | Some m => do d <- read m (4 * i) 4; Ok (be_val d)
                 | None => UB
                 end
               else if (0 <? left)%Z then
                 match inp with
                 | Some m =>
                     do d <- read m (4 * i) (Z.to_nat left);
                     Ok (N.lor (be_val (d ++ repeat 0 (4 - Z.to_nat left)))
                               (N.shiftr 2147483648 (Z.to_N (left * 8))))
                 | None => UB
                 end
               else if (left =? 0)%Z then Ok 2147483648
               else Ok 0);
      do (ws, left) <- copy_words n (S i) inp (left - 4)%Z;
      Ok (w :: ws, left)
  end.

(** the constants, sha256.c L55-64 and L66-68 *)
Definition k : list N :=
  [0x428a2f98; 0x71374491; 0xb5c0fbcf; 0xe9b5dba5; 0x3956c25b; 0x59f111f1; 0x923f82a4; 0xab1c5ed5;
   0xd807aa98; 0x12835b01; 0x243185be; 0x550c7dc3; 0x72be5d74; 0x80deb1fe; 0x9bdc06a7; 0xc19bf174;
   0xe49b69c1; 0xefbe4786; 0x0fc19dc6; 0x240ca1cc; 0x2de92c6f; 0x4a7484aa; 0x5cb0a9dc; 0x76f988da;
   0x983e5152; 0xa831c66d; 0xb00327c8; 0xbf597fc7; 0xc6e00bf3; 0xd5a79147; 0x06ca6351; 0x14292967;
   0x27b70a85; 0x2e1b2138; 0x4d2c6dfc; 0x53380d13; 0x650a7354; 0x766a0abb; 0x81c2c92e; 0x92722c85;
   0xa2bfe8a1; 0xa81a664b; 0xc24b8b70; 0xc76c51a3; 0xd192e819; 0xd6990624; 0xf40e3585; 0x106aa070;
   0x19a4c116; 0x1e376c08; 0x2748774c; 0x34b0bcb5; 0x391c0cb3; 0x4ed8aa4a; 0x5b9cca4f; 0x682e6ff3;
   0x748f82ee; 0x78a5636f; 0x84c87814; 0x8cc70208; 0x90befffa; 0xa4506ceb; 0xbef9a3f7; 0xc67178f2].
Definition h_init : list N :=
  [0x6a09e667; 0xbb67ae85; 0x3c6ef372; 0xa54ff53a; 0x510e527f; 0x9b05688c; 0x1f83d9ab; 0x5be0cd19].

Definition at_ (l : list N) (i : nat) : N := nth i l 0.

(** the schedule, L81-85: [n] more words; the array is the list of the words
    written so far *)
Fixpoint schedule (n : nat) (w : list N) : list N :=
  match n with
  | O => w
  | S n =>
      let i := length w in
      let s0 := N.lxor (N.lxor (rotr (at_ w (i - 15)) 7) (rotr (at_ w (i - 15)) 18)) (N.shiftr (at_ w (i - 15)) 3) in
      let s1 := N.lxor (N.lxor (rotr (at_ w (i - 2)) 17) (rotr (at_ w (i - 2)) 19)) (N.shiftr (at_ w (i - 2)) 10) in
      schedule n (w ++ [add32 (add32 (add32 (at_ w (i - 16)) s0) (at_ w (i - 7))) s1])
  end.

(** one round, L89-105 *)
Definition round (v : list N) (ki wi : N) : list N :=
  let s1 := N.lxor (N.lxor (rotr (at_ v 4) 6) (rotr (at_ v 4) 11)) (rotr (at_ v 4) 25) in
  let ch := N.lxor (N.land (at_ v 4) (at_ v 5)) (N.land (not32 (at_ v 4)) (at_ v 6)) in
  let temp1 := add32 (add32 (add32 (add32 (at_ v 7) s1) ch) ki) wi in
  let s0 := N.lxor (N.lxor (rotr (at_ v 0) 2) (rotr (at_ v 0) 13)) (rotr (at_ v 0) 22) in
  let maj := N.lxor (N.lxor (N.land (at_ v 0) (at_ v 1)) (N.land (at_ v 0) (at_ v 2))) (N.land (at_ v 1) (at_ v 2)) in
  let temp2 := add32 s0 maj in
  [add32 temp1 temp2; at_ v 0; at_ v 1; at_ v 2; add32 (at_ v 3) temp1; at_ v 4; at_ v 5; at_ v 6].

Fixpoint rounds (n i : nat) (w v : list N) : list N :=
  match n with
  | O => v
  | S n => rounds n (S i) w (round v (at_ k i) (at_ w i))
  end.

Fixpoint add_all (a b : list N) : list N :=
  match a, b with
  | x :: a, y :: b => add32 x y :: add_all a b
  | _, _ => []
  end.

(** [sha256_list], L54-112.  [ins] are the pointers in the array; reading a slot
    behind its end yields an unspecified pointer (and is counted: the third
    component is the number of slots read).  [lenw] is [len << 3] as uint32_t. *)
Fixpoint sha256_loop (fuel : nat) (h : list N) (ins : list bytes) (slots : nat) (left : Z) (lenw : N)
    : res (list N * nat) :=
  if (left <? -8)%Z then Ok (h, slots)
  else
  match fuel with
  | O => Bug
  | S fuel =>
      do (w1, left) <- copy_words 8 0 (nth_error ins slots) left;
      do (w2, left) <- copy_words 8 0 (nth_error ins (slots + 1)) left;
      let w := w1 ++ w2 in
      let w := if (left <? -8)%Z then firstn 15 w ++ [lenw] else w in
      let w := schedule 48 w in
      let v := rounds 64 0 w h in
      sha256_loop fuel (add_all h v) ins (slots + 2) left lenw
  end.

Definition sha256_list (ins : list bytes) (len : nat) : res (bytes * nat) :=
  do (h, slots) <- sha256_loop (S (S (len / 64))) h_init ins 0 (Z.of_nat len) (N.shiftl (N.of_nat len) 3 mod W32);
  Ok (flat_map (be_bytes 4) h, slots).

(** [fastd_sha256_blocks], L115-142: complete blocks of 32 bytes *)
Definition sha256_blocks (blocks : list bytes) : res bytes :=
  do (out, _) <- sha256_list blocks (length blocks * 32); Ok out.

(** the pointers to the 32-byte blocks of a buffer, L146-150 and others *)
Definition block_pointers (m : bytes) (len : nat) : list bytes :=
  map (fun i => skipn (32 * i) m) (seq 0 ((len + 31) / 32)).

(** [fastd_sha256], L145-153 *)
Definition sha256 (m : bytes) (len : nat) : res bytes :=
  do (out, _) <- sha256_list (block_pointers m len) len; Ok out.

(** [ipad[i] = key[i] ^ 0x36363636] on native (little-endian) words *)
Fixpoint xor_words (n : nat) (key : bytes) (c : N) : bytes :=
  match n with
  | O => []
  | S n => le_bytes 4 (N.lxor (le_val (firstn 4 key)) c) ++ xor_words n (skipn 4 key) c
  end.
Definition ipad2 : bytes := flat_map (le_bytes 4) (repeat 0x36363636 8).
Definition opad2 : bytes := flat_map (le_bytes 4) (repeat 0x5c5c5c5c 8).

(** [hmacsha256_list], L156-184 *)
Definition hmacsha256_list (key : bytes) (ins : list bytes) (len : nat) : res bytes :=
  let count := ((len + 31) / 32)%nat in
  if Nat.ltb (length ins) count then UB
  else
  let ipad := xor_words 8 key 0x36363636 in
  let opad := xor_words 8 key 0x5c5c5c5c in
  do (temp, _) <- sha256_list ([ipad; ipad2] ++ firstn count ins) (len + 64);
  sha256_blocks [opad; opad2; temp].

(** [fastd_hmacsha256_blocks], L187-213 *)
Definition hmacsha256_blocks (key : bytes) (blocks : list bytes) : res bytes :=
  hmacsha256_list key blocks (length blocks * 32).

(** [fastd_hmacsha256], L230-240 *)
Definition hmacsha256 (key m : bytes) (len : nat) : res bytes :=
  hmacsha256_list key (block_pointers m len) len.

(** [secure_memequal], crypto.h L99-108 *)
Fixpoint memequal_loop (n : nat) (v : N) (a b : bytes) : N :=
  match n, a, b with
  | S n, x :: a, y :: b => memequal_loop n (N.lor v (N.lxor x y)) a b
  | _, _, _ => v
  end.
Definition secure_memequal (a b : bytes) (n : nat) : bool := N.eqb (memequal_loop n 0 a b) 0.

(** [block_equal], crypto.h L111-120: four native words *)
Definition block_equal (a b : bytes) : bool :=
  let dw l i := le_val (slice l (4 * i) 4) in
  let v := N.lor 0 (N.lxor (dw a 0%nat) (dw b 0%nat)) in
  let v := N.lor v (N.lxor (dw a 1%nat) (dw b 1%nat)) in
  let v := N.lor v (N.lxor (dw a 2%nat) (dw b 2%nat)) in
  let v := N.lor v (N.lxor (dw a 3%nat) (dw b 3%nat)) in
  N.eqb v 0.

(** [fastd_hmacsha256_verify], L243-250 *)
Definition hmacsha256_verify (mac key m : bytes) (len : nat) : res bool :=
  do out <- hmacsha256 key m len; Ok (secure_memequal out mac 32).

(** [fastd_hkdf_sha256_extract], hkdf_sha256.h L22-25 *)
Definition hkdf_extract := hmacsha256.

(** [fastd_hkdf_sha256_expand], hkdf_sha256.c L20-42.  [last] is the last byte of
    the buffer; the result is the list of the output blocks. *)
Fixpoint expand_loop (n : nat) (prk info : bytes) (last : N) (out : bytes) : res (list bytes) :=
  match n with
  | O => Ok []
  | S n =>
      let last := (last + 1) mod 256 in
      let buf := out ++ info ++ [last] in
      do o <- hmacsha256 prk buf (length buf);
      do r <- expand_loop n prk info last o;
      Ok (o :: r)
  end.
Definition hkdf_expand (blocks : nat) (prk info : bytes) : res (list bytes) :=
  match blocks with
  | O => Ok []
  | S n =>
      do o <- hmacsha256 prk (info ++ [1]) (length info + 1);
      do r <- expand_loop n prk info 1 o;
      Ok (o :: r)
  end.
