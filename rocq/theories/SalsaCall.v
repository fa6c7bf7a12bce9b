(** What a call of fastd_salsa20_xmm_xor or fastd_salsa2012_xmm_xor finds and what it leaves,
    by the System V calling convention of amd64 *)
From Verif Require Import Base SalsaModel SalsaSpec.
Local Open Scope N_scope.

(** The arguments: out (rdi), in (rsi), the number of bytes (rdx), nonce (rcx), key (r8); there is room for 480 bytes below the stack pointer, besides
    what it takes to align it *)
Record called (size : object -> N) (top ko no io co len : N) (s : st) : Prop := {
  c_sp : g s RSP = VP Stack top; c_room : 480 + top mod 32 <= top; c_top : top <= size Stack;
  c_out : g s RDI = VP Out co; c_outlen : co + len <= size Out;
  c_in : g s RSI = VP In io; c_inlen : io + len <= size In;
  c_len : g s RDX = VI len;
  c_nonce : g s RCX = VP Nonce no; c_noncelen : no + 8 <= size Nonce;
  c_key : g s R8 = VP Key ko; c_keylen : ko + 32 <= size Key;
  c_saved : forall r, List.In r [RBX; RBP; R12; R13; R14; R15] -> exists v, g s r = VI v /\ v < 2 ^ 64 }.
(** The string of bytes at an address *)
Definition bytes_from (s : st) (o : object) (a : N) (i : N) : N := byte_at (m s) o (a + i).
(** What the caller finds: the result, the rest of the memory (but the 511 bytes below the stack pointer) and the registers that a function keeps *)
Record returned (doubles : nat) (top ko no io co len : N) (s s' : st) : Prop := {
  r_result : forall j, j < len ->
    bytes_from s' Out co j = N.lxor (bytes_from s In io j) (stream doubles (bytes_from s Key ko) (bytes_from s Nonce no) j);
  r_rest : forall o a, (o = Out -> a < co \/ co + len <= a) -> (o = Stack -> a + 512 <= top \/ top <= a) -> m s' o a = m s o a;
  r_kept : forall r, List.In r [RSP; RBX; RBP; R12; R13; R14; R15] -> g s' r = g s r;
  r_value : g s' RAX = VI 0 }.
(** The function ends after some number of instructions *)
Definition ends (size : object -> N) (rounds : N) (s s' : st) : Prop := exists n, run size n (program rounds) (program rounds) s = Done s'.
(** Where the bytes of the key are in the frame, which begins at this address *)
Definition frame_of (top : N) : N := top - (top mod 32 + 480).
Definition place (i : N) : N := 4 * nth (N.to_nat (i / 4)) [1; 6; 11; 8; 3; 0; 5; 10] 0 + i mod 4.
