(** Packet buffers at memory level.  Source: src/buffer.h, src/buffer.c,
    src/util.h.

    A buffer is its backing memory ([base], 16-byte aligned, buffer.h L25 and
    buffer.c L28-29), the offset of [data] from [base] and the length.  Offsets
    and lengths are [nat]. *)
From Verif Require Import Base.

(** Outcome of a C function: a value, [exit_bug], [exit_fatal], or undefined
    behaviour (out-of-bounds or misaligned block access). *)
Inductive res (A : Type) :=
| Ok (a : A)
| Bug
| Fatal
| UB.
Arguments Ok {A}. Arguments Bug {A}. Arguments Fatal {A}. Arguments UB {A}.

Definition bind {A B} (m : res A) (f : A -> res B) : res B :=
  match m with Ok a => f a | Bug => Bug | Fatal => Fatal | UB => UB end.
Notation "'do' x <- m ; f" := (bind m (fun x => f))
  (at level 200, x pattern, m at level 100, f at level 200).

(** util.h L55-64 *)
Definition block_count (l a : nat) : nat := (l + a - 1) / a.
Definition alignto (l a : nat) : nat := block_count l a * a.

(** util.h L92-94 *)
Definition ssub (a b : nat) : nat := if Nat.ltb b a then a - b else 0.

Record buf := mk_buf {
  b_mem : bytes;   (* contents of base[], its length is the real size *)
  b_off : nat;     (* data - base *)
  b_len : nat
}.

Definition slice (l : bytes) (off n : nat) : bytes := firstn n (skipn off l).

(** The bytes a buffer currently holds. *)
Definition b_data (b : buf) : bytes := slice (b_mem b) (b_off b) (b_len b).

(** Overwriting a range of memory; the caller checks the bounds. *)
Definition overwrite (mem : bytes) (off : nat) (d : bytes) : bytes :=
  firstn off mem ++ d ++ skipn (off + length d) mem.

(** A byte-wise write (memcpy/memset): undefined outside the memory. *)
Definition write (mem : bytes) (off : nat) (d : bytes) : res bytes :=
  if Nat.leb (off + length d) (length mem) then Ok (overwrite mem off d) else UB.

(** A byte-wise read. *)
Definition read (mem : bytes) (off n : nat) : res bytes :=
  if Nat.leb (off + n) (length mem) then Ok (slice mem off n) else UB.

(** Accesses through [fastd_block128_t *] (types.h L158-162) must be 16-byte
    aligned. *)
Definition aligned16 (off : nat) : bool := Nat.eqb (off mod 16) 0.

Definition read_blocks (mem : bytes) (off n : nat) : res bytes :=
  if aligned16 off then read mem off (16 * n) else UB.
Definition write_blocks (mem : bytes) (off : nat) (d : bytes) : res bytes :=
  if aligned16 off then write mem off d else UB.

(** [fastd_buffer_alloc], buffer.c L53-71: a buffer of the pool with arbitrary
    old contents [garbage].  ("out of buffers" is treated in the pool model.) *)
Definition b_alloc (max_buffer : nat) (garbage : bytes) (len headroom : nat) : res buf :=
  if Nat.ltb max_buffer (alignto (headroom + len) 16) then Fatal
  else Ok {| b_mem := garbage; b_off := headroom; b_len := len |}.

(** [fastd_buffer_dup], buffer.h L44-48 *)
Definition b_dup (max_buffer : nat) (garbage : bytes) (b : buf) (headroom : nat) : res buf :=
  do n <- b_alloc max_buffer garbage (b_len b) headroom;
  do d <- read (b_mem b) (b_off b) (b_len b);
  do m <- write (b_mem n) (b_off n) d;
  Ok {| b_mem := m; b_off := b_off n; b_len := b_len n |}.

(** [fastd_buffer_align], buffer.h L64-73 *)
Definition b_align (max_buffer : nat) (garbage : bytes) (b : buf) (min_headroom : nat) : res buf :=
  if (Nat.leb min_headroom (b_off b) && Nat.eqb ((b_off b - min_headroom) mod 16) 0)%bool
  then Ok b
  else b_dup max_buffer garbage b min_headroom.

(** [fastd_buffer_zero_pad], buffer.h L76-80 *)
Definition b_zero_pad (b : buf) : res buf :=
  let e := b_off b + b_len b in
  do m <- write (b_mem b) e (repeat 0%N (alignto e 16 - e));
  Ok {| b_mem := m; b_off := b_off b; b_len := b_len b |}.

(** [fastd_buffer_push], buffer.h L83-89 *)
Definition b_push (b : buf) (n : nat) : res buf :=
  if Nat.ltb (b_off b) n then Bug
  else Ok {| b_mem := b_mem b; b_off := b_off b - n; b_len := b_len b + n |}.

(** [fastd_buffer_push_from] / [fastd_buffer_push_zero], buffer.h L92-101 *)
Definition b_push_from (b : buf) (d : bytes) : res buf :=
  do b' <- b_push b (length d);
  do m <- write (b_mem b') (b_off b') d;
  Ok {| b_mem := m; b_off := b_off b'; b_len := b_len b' |}.
Definition b_push_zero (b : buf) (n : nat) : res buf := b_push_from b (repeat 0%N n).

(** [fastd_buffer_pull], buffer.h L105-111 *)
Definition b_pull (b : buf) (n : nat) : res buf :=
  if Nat.ltb (b_len b) n then Bug
  else Ok {| b_mem := b_mem b; b_off := b_off b + n; b_len := b_len b - n |}.
