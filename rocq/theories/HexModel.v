(** Keys in hexadecimal.  Source: [read_key] in src/protocols/ec25519_fhmqvc/ec25519_fhmqvc.c, [hexdump] in
    ec25519_fhmqvc.h, [print_hexdump] and describe_peer in util.c there.

    C strings are lists of bytes without the final zero; arrays are lists of cells as in NameModel. *)
From Verif Require Import Base BufferModel NameModel.
From Coq Require Import String.

(** strspn(s, "0123456789abcdefABCDEF") *)
Definition hexchars : bytes := str "0123456789abcdefABCDEF".
Fixpoint strspn (s accept : bytes) : nat :=
  match s with [] => O | c :: r => if existsb (N.eqb c) accept then S (strspn r accept) else O end.

(** The value of a hexadecimal digit as read by sscanf *)
Definition digit (c : N) : option N :=
  (if (48 <=? c) && (c <=? 57) then Some (c - 48)
   else if (97 <=? c) && (c <=? 102) then Some (c - 87)
   else if (65 <=? c) && (c <=? 70) then Some (c - 55) else None)%N.

(** sscanf(s, "%02hhx", …): at most two digits; [None] if there is none, and nothing is stored then.  White space, signs and the prefix
    0x, which sscanf accepts, are left out: the caller has excluded them. *)
Definition scan_hhx (s : bytes) : option N :=
  match s with
  | [] => None
  | a :: r =>
      match digit a with
      | None => None
      | Some x => match r with
                  | [] => Some x
                  | b :: _ => match digit b with Some y => Some (16 * x + y)%N | None => Some x end
                  end
      end
  end.

(** [read_key], ec25519_fhmqvc.c L18-28; the key is an uninitialised array (fastd_new).  Reading beyond the
    final zero is undefined. *)
Fixpoint read_loop (n i : nat) (key : cells) (s : bytes) : res cells :=
  match n with
  | O => Ok key
  | S n =>
      if Nat.leb (2 * i) (List.length s) then
        do key <- (match scan_hhx (skipn (2 * i) s) with Some v => put key i [v] | None => Ok key end);
        read_loop n (S i) key s
      else UB
  end.
Definition read_key (s : bytes) : res (option cells) :=
  if negb (Nat.eqb (List.length s) 64) || negb (Nat.eqb (strspn s hexchars) 64) then Ok None
  else do k <- read_loop 32 0 (repeat None 32) s; Ok (Some k).

(** snprintf(out, size, "%02x", b) for a byte: at most two digits, cut if necessary, and a zero *)
Definition xdigit (v : N) : N := (if v <? 10 then 48 + v else 87 + v)%N.
Definition snprintf_02x (out : cells) (off size : nat) (b : N) : res cells :=
  match size with O => Ok out | S n => put out off (firstn n [xdigit (b / 16); xdigit (b mod 16)]%N ++ [0%N]) end.

(** [hexdump], ec25519_fhmqvc.h L116-120: 32 bytes at [d] *)
Fixpoint hexdump_loop (n i : nat) (out : cells) (d : bytes) : res cells :=
  match n with
  | O => Ok out
  | S n => match nth_error d i with
           | None => UB
           | Some b => do out <- snprintf_02x out (2 * i) 3 b; hexdump_loop n (S i) out d
           end
  end.
Definition hexdump (d : bytes) : res cells := hexdump_loop 32 0 (repeat None 65) d.

(** [print_hexdump], util.c L18-23: what is written to stdout *)
Definition print_hexdump (desc d : bytes) : res bytes :=
  do b <- hexdump d; do s <- cstr b; Ok (desc ++ s ++ [10%N]).

(** snprintf(buf, len, "%s", s) *)
Definition snprintf_s (out : cells) (off size : nat) (s : bytes) : res cells :=
  match size with O => Ok out | S n => put out off (firstn n s ++ [0%N]) end.

(** [fastd_protocol_ec25519_fhmqvc_describe_peer], util.c L78-87, into an array of [len] bytes: of a
    peer with the given public key *)
Definition describe_peer (len : nat) (key : bytes) : res bytes :=
  do b <- hexdump key; do s <- cstr b; do o <- snprintf_s (repeat None len) 0 len s; cstr o.
