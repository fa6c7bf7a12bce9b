(** The record of handshakes sent to unknown addresses, receive.c L71-142 *)
From Verif Require Import Base BufferModel MethodModel AddrModel.
Local Open Scope Z_scope.

Definition UNKNOWN_TABLES : Z := 16.
Definition UNKNOWN_ENTRIES : N := 64.
Definition table_interval : Z := MIN_HANDSHAKE_INTERVAL / (UNKNOWN_TABLES - 1).

(** fastd_handshake_timeout_t *)
Record entry := mk_entry { e_addr : saddr; e_timeout : Z }.
(** [ctx.unknown_handshakes] by table and entry, and [ctx.unknown_handshake_seed] *)
Record unknown := mk_unknown { u_tab : N -> N -> entry; u_seed : N }.

(** [fastd_receive_unknown_init], L72-83 *)
Definition unknown_init (now : Z) (seed : N) : unknown := mk_unknown (fun _ _ => mk_entry AUnspec now) seed.

(** [unknown_hash_entry], L93-101: the place of the entry.  The slice is a 64-bit number;
    the conversion to [size_t] is modelled for 64-bit machines. *)
Definition hash_entry (seed : N) (base : Z) (i : nat) (a : saddr) : res (N * N) :=
  let slice := base - Z.of_nat i in
  let u := Z.to_N (slice mod 2 ^ 64) in
  do h <- address_hash (hash_bytes seed (le_bytes 8 u)) a;
  Ok (u mod Z.to_N UNKNOWN_TABLES, hash_final h mod UNKNOWN_ENTRIES)%N.

Definition put_entry (k j : N) (e : entry) (u : unknown) : unknown :=
  mk_unknown (fun k' j' => if (k' =? k)%N && (j' =? j)%N then e else u_tab u k' j') (u_seed u).

(** The loop of [backoff_unknown], L115-129, from index [i] on with [n] left: true if
    a record of the address was found, and the first timed out entry *)
Fixpoint backoff_loop (n i : nat) (now base : Z) (a : saddr) (u : unknown) (first : option nat) : res (bool * option nat) :=
  match n with
  | O => Ok (false, first)
  | S n =>
      do kj <- hash_entry (u_seed u) base i a;
      let t := u_tab u (fst kj) (snd kj) in
      if timed_out now (e_timeout t) then backoff_loop n (S i) now base a u (match first with Some _ => first | None => Some i end)
      else if negb (address_equal a (e_addr t)) then backoff_loop n (S i) now base a u first
      else Ok (true, first)
  end.

(** [backoff_unknown], L109-142; [r] is the value of random().  The result is true if no handshake
    is to be sent. *)
Definition backoff_unknown (now : Z) (r : N) (a : saddr) (u : unknown) : res (bool * unknown) :=
  let base := now / table_interval in
  do fe <- backoff_loop 16 0 now base a u None;
  let (found, first) := fe in
  if found then Ok (true, u)
  else
    let i := match first with Some i => i | None => N.to_nat (r mod Z.to_N UNKNOWN_TABLES) end in
    do kj <- hash_entry (u_seed u) base i a;
    Ok (false, put_entry (fst kj) (snd kj) (mk_entry a (now + MIN_HANDSHAKE_INTERVAL - Z.of_nat i * table_interval)) u).

(** A payload packet from an unknown address at some time *)
Record arrival := mk_arrival { v_now : Z; v_addr : saddr; v_rand : N }.
(** The results for a sequence of packets, L268-276 *)
Fixpoint backoffs (l : list arrival) (u : unknown) : res (list bool * unknown) :=
  match l with
  | [] => Ok ([], u)
  | v :: r =>
      do bu <- backoff_unknown (v_now v) (v_rand v) (v_addr v) u;
      do su <- backoffs r (snd bu);
      Ok (fst bu :: fst su, snd su)
  end.
