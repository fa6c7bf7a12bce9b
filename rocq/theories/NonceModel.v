(** Model of the common part of the data methods: send nonce, replay window,
    session validity.  Source: src/methods/common.c, src/methods/common.h. *)
From Verif Require Import Base.
Local Open Scope Z_scope.

(** common.h L16-20: COMMON_NONCEBYTES *)
Definition COMMON_NONCEBYTES : nat := 6.

(** [fastd_method_common_t], common.h L30-47 (without the [peer] back pointer;
    [flags] is split into its two bits). *)
Record session := mk_session {
  s_initiator : bool;          (* flags & FASTD_SESSION_INITIATOR *)
  s_compat : bool;             (* flags & FASTD_SESSION_COMPAT *)
  s_valid_till : Z;
  s_refresh_after : Z;
  s_send : bytes;              (* send_nonce[6], most significant byte first *)
  s_recv : bytes;              (* receive_nonce[6] *)
  s_reorder_timeout : Z;
  s_seen : N                   (* receive_reorder_seen, uint64_t *)
}.

(** [fastd_method_common_init], common.c L18-33.  [rnd] is the value returned
    by fastd_rand(0, KEY_REFRESH_SPLAY). *)
Definition common_init (now : Z) (initiator compat : bool) (rnd : Z) : session :=
  {| s_initiator := initiator;
     s_compat := compat;
     s_valid_till := now + KEY_VALID;
     s_refresh_after := now + KEY_REFRESH - rnd;
     s_send := [0; 0; 0; 0; 0; if initiator then 3 else 2]%N;
     s_recv := [0; 0; 0; 0; 0; if initiator then 0 else 1]%N;
     s_reorder_timeout := 0;
     s_seen := 0 |}.

(** The loop of [fastd_method_is_nonce_valid] (common.c L44-47): for each byte
    [age <<= 8; age += r[i] - n[i]].  The left shift of a possibly negative
    int64_t is what GCC and clang define (multiplication by 256); it cannot
    overflow since |age| < 2^48. *)
Fixpoint age_loop (acc : Z) (r n : bytes) : Z :=
  match r, n with
  | x :: r', y :: n' => age_loop (acc * 256 + (Z.of_N x - Z.of_N y)) r' n'
  | _, _ => acc
  end.

(** [fastd_method_is_nonce_valid], common.c L36-60; [Some age] for [true]. *)
Definition is_nonce_valid (now : Z) (s : session) (nonce : bytes) : option Z :=
  if negb (N.eqb (N.land (hd 0%N nonce) 1) (N.land (hd 0%N (s_recv s)) 1)) then None
  else
    let age := Z.shiftr (age_loop 0 (s_recv s) nonce) 1 in
    if 0 <=? age then
      if timed_out now (s_reorder_timeout s) then None
      else if 64 <? age then None
      else Some age
    else Some age.

(** Left shift of a uint64_t; shifting by 64 or more is undefined behaviour. *)
Definition shl64 (x n : N) : option N :=
  if (n <? 64)%N then Some (N.shiftl x n mod 2 ^ 64)%N else None.

Inductive reorder_result :=
| RUB                       (* undefined behaviour in C *)
| RDuplicate                (* FASTD_TRISTATE_UNDEF *)
| RNew (s : session)        (* FASTD_TRISTATE_FALSE *)
| RReordered (s : session). (* FASTD_TRISTATE_TRUE *)

Definition set_window (s : session) (recv : bytes) (timeout : Z) (seen : N) : session :=
  {| s_initiator := s_initiator s; s_compat := s_compat s;
     s_valid_till := s_valid_till s; s_refresh_after := s_refresh_after s;
     s_send := s_send s; s_recv := recv;
     s_reorder_timeout := timeout; s_seen := seen |}.

(** [fastd_method_reorder_check], common.c L69-93. *)
Definition reorder_check (now : Z) (s : session) (nonce : bytes) (age : Z) : reorder_result :=
  if age <? 0 then
    let shift := Z.to_N (- age) in
    match (if (64 <=? shift)%N then Some 0%N else shl64 (s_seen s) shift) with
    | None => RUB
    | Some seen1 =>
        match (if (shift <=? 64)%N
               then match shl64 1 (shift - 1)%N with
                    | Some b => Some (N.lor seen1 b)
                    | None => None
                    end
               else Some seen1) with
        | None => RUB
        | Some seen2 => RNew (set_window s nonce (now + REORDER_TIME) seen2)
        end
    end
  else if age =? 0 then RDuplicate
  else
    match shl64 1 (Z.to_N (age - 1)) with
    | None => RUB
    | Some b =>
        if negb (N.eqb (N.land (s_seen s) b) 0) then RDuplicate
        else RReordered (set_window s (s_recv s) (s_reorder_timeout s) (N.lor (s_seen s) b))
    end.

(** What a method's decrypt function does with the nonce of a packet whose tag
    was verified: header check, then reorder check (e.g. generic_gmac.c
    L201-243). *)
Inductive verdict := VRejected | VNew | VReordered | VUB.

Definition accept_nonce (now : Z) (s : session) (nonce : bytes) : session * verdict :=
  match is_nonce_valid now s nonce with
  | None => (s, VRejected)
  | Some age =>
      match reorder_check now s nonce age with
      | RUB => (s, VUB)
      | RDuplicate => (s, VRejected)
      | RNew s' => (s', VNew)
      | RReordered s' => (s', VReordered)
      end
  end.

(** [fastd_method_session_common_is_valid], common.h L61-66 *)
Definition common_is_valid (now : Z) (s : session) : bool :=
  if (N.eqb (nth 0 (s_send s) 0%N) 255 && N.eqb (nth 1 (s_send s) 0%N) 255)%bool then false
  else negb (timed_out now (s_valid_till s)).

(** [fastd_method_session_common_want_refresh], common.h L82-90 *)
Definition common_want_refresh (now : Z) (s : session) : bool :=
  if N.eqb (nth 0 (s_send s) 0%N) 255 then true
  else (s_initiator s && timed_out now (s_refresh_after s))%bool.

(** [fastd_method_session_common_superseded], common.h L93-98 *)
Definition common_superseded (now : Z) (s : session) : session :=
  let valid_max := now + KEY_VALID_OLD in
  if valid_max <? s_valid_till s then
    {| s_initiator := s_initiator s; s_compat := s_compat s;
       s_valid_till := valid_max; s_refresh_after := s_refresh_after s;
       s_send := s_send s; s_recv := s_recv s;
       s_reorder_timeout := s_reorder_timeout s; s_seen := s_seen s |}
  else s.

(** [++session->send_nonce[i]] until a byte does not wrap, for i = 4..0;
    the argument is the list of bytes 4,3,..,0 (least significant first). *)
Fixpoint carry_loop (l : bytes) : bytes :=
  match l with
  | [] => []
  | b :: r => let b' := ((b + 1) mod 256)%N in
              if N.eqb b' 0 then b' :: carry_loop r else b' :: r
  end.

(** [fastd_method_increment_nonce], common.h L106-116: on the reversed byte list *)
Definition increment_nonce (nonce : bytes) : bytes :=
  match rev nonce with
  | [] => []
  | last :: r =>
      let last' := ((last + 2) mod 256)%N in
      (* !(x & ~1): no bit other than bit 0 is set *)
      if N.eqb (N.ldiff last' 1) 0 then rev (last' :: carry_loop r) else rev (last' :: r)
  end.

Definition set_send (s : session) (n : bytes) : session :=
  {| s_initiator := s_initiator s; s_compat := s_compat s;
     s_valid_till := s_valid_till s; s_refresh_after := s_refresh_after s;
     s_send := n; s_recv := s_recv s;
     s_reorder_timeout := s_reorder_timeout s; s_seen := s_seen s |}.

(** [fastd_method_packet_type], common.h L118-123 (PACKET_DATA_COMPAT = 0x02,
    PACKET_DATA = 0x00, types.h). *)
Definition PACKET_DATA : N := 0.
Definition PACKET_DATA_COMPAT : N := 2.
Definition packet_type (compat : bool) : N := if compat then PACKET_DATA_COMPAT else PACKET_DATA.

(** [fastd_method_put_common_header], common.h L126-140: returns the 8 header
    bytes in wire order and the session with the incremented nonce. *)
Definition put_common_header (s : session) (flags : N) : bytes * session :=
  (packet_type (s_compat s) :: flags :: s_send s, set_send s (increment_nonce (s_send s))).

(** [fastd_method_expand_nonce], common.h L168-175, as the final contents of
    [buf] (length [len]): zero, then the nonce prefix, then the last byte := 1. *)
Definition expand_nonce (nonce : bytes) (len : nat) : bytes :=
  match len with
  | O => []
  | S l => firstn l (firstn (Nat.min len COMMON_NONCEBYTES) nonce ++ repeat 0%N len) ++ [1%N]
  end.

(** One guarded send, as the protocol performs it: the session's validity is
    checked and then one packet is encrypted with the current nonce
    (ec25519_fhmqvc.c L88-95 check_session, L98-106 use_old_session, L164-198). *)
Definition guarded_send (now : Z) (s : session) : option (bytes * session) :=
  if common_is_valid now s then
    let '(hdr, s') := put_common_header s 0 in Some (skipn 2 hdr, s')
  else None.
