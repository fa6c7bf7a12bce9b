(** The pool of packet buffers, src/buffer.c, and who allocates, uses, passes on
    and frees buffers while an event is processed: receive.c, send.c, iface.c,
    peer.c, handshake.c, protocols/ec25519_fhmqvc and the methods.

    A pointer to a buffer is its number.  Whatever a branch depends on (packet
    contents, state of peers and sessions, results of ciphers and of system
    calls, lengths, the number of peers) is left open: it is taken from a list of
    choices, so all paths through the functions are covered.  Branches which end
    the program for other reasons than those of buffer.c are left out; after
    them nothing happens. *)
From Verif Require Import Base BufferModel.
Local Open Scope N_scope.

Definition SIZE_MAX : N := 2 ^ 64 - 1.

(** [struct fastd_buffer], buffer.h L20-25.  [data] points into [base], or to the next free buffer. *)
Inductive cdata : Set := Data (headroom : N) | Link (next : option nat).
Record cell := mk_cell { c_len : N; c_data : cdata }.
(** [buffers], buffer.c L20-21, the memory of all buffers, and the choices *)
Record pool := mk_pool { p_cells : list cell; p_head : option nat; p_choices : list N }.

Definition choose (s : pool) : N * pool := (hd 0 (p_choices s), mk_pool (p_cells s) (p_head s) (tl (p_choices s))).

(** Writing the descriptor of a buffer *)
Definition set_cell (b : nat) (c : cell) (l : list cell) : list cell := firstn b l ++ c :: skipn (S b) l.

(** [fastd_buffer_free], buffer.c L74-78 *)
Definition buffer_free (b : nat) (s : pool) : res pool :=
  match nth_error (p_cells s) b with
  | None => UB
  | Some _ => Ok (mk_pool (set_cell b (mk_cell SIZE_MAX (Link (p_head s))) (p_cells s)) (Some b) (p_choices s))
  end.

(** [fastd_buffer_alloc], buffer.c L52-71; [max] is ctx.max_buffer *)
Definition buffer_alloc (max len headroom : N) (s : pool) : res (nat * pool) :=
  if max <? (headroom + len + 15) / 16 * 16 then Fatal
  else
    match p_head s with
    | None => Bug
    | Some b =>
        match nth_error (p_cells s) b with
        | None => UB
        | Some c =>
            if negb (c_len c =? SIZE_MAX) then Bug
            else
              match c_data c with
              | Data _ => UB
              | Link n => Ok (b, mk_pool (set_cell b (mk_cell len (Data headroom)) (p_cells s)) n (p_choices s))
              end
        end
    end.

(** [fastd_init_buffers], buffer.c L25-32, and [fastd_cleanup_buffers], L35-42; FASTD_BUFFER_COUNT is a parameter *)
Fixpoint init_buffers (n : nat) (s : pool) : res pool :=
  match n with
  | O => Ok s
  | S n =>
      do s <- buffer_free (length (p_cells s)) (mk_pool (p_cells s ++ [mk_cell 0 (Data 0)]) (p_head s) (p_choices s));
      init_buffers n s
  end.
Fixpoint cleanup_buffers (max : N) (n : nat) (s : pool) : res pool :=
  match n with
  | O => match p_head s with Some _ => Bug | None => Ok s end
  | S n => do (_, s) <- buffer_alloc max 0 0 s; cleanup_buffers max n s
  end.
Definition BUFFER_COUNT : nat := 3.

(** Any access to the data or the length of a buffer: a freed one must not be accessed *)
Definition use (b : nat) (s : pool) : res unit :=
  match nth_error (p_cells s) b with
  | Some (mk_cell _ (Data _)) => Ok tt
  | _ => UB
  end.
(** An allocation whose sizes are left open *)
Definition alloc (max : N) (s : pool) : res (nat * pool) :=
  let (len, s) := choose s in
  let (headroom, s) := choose s in
  buffer_alloc max len headroom s.
Definition decide (s : pool) : bool * pool := let (c, s) := choose s in (negb (c =? 0), s).

(** ** Methods, by what they do with buffers: null; null@l2tp; generic-gmac and generic-umac; generic-poly1305;
    composed-gmac, composed-umac and cipher-test *)
Inductive kind : Set := KNull | KL2tp | KGeneric | KPoly1305 | KComposed.
Definition choose_kind (s : pool) : kind * pool :=
  let (c, s) := choose s in
  (match c with 0 => KNull | 1 => KL2tp | 2 => KGeneric | 3 => KPoly1305 | _ => KComposed end, s).

(** The [encrypt] functions: null.c L80-85, null-l2tp.c L98-124, generic_gmac.c L150-184, generic_umac.c L130-164,
    generic_poly1305.c L131-165, composed_gmac.c L183-222, composed_umac.c L161-200, cipher_test.c L117-141 *)
Definition encrypt (max : N) (k : kind) (b : nat) (s : pool) : res (option nat * pool) :=
  match k with
  | KNull => do _ <- use b s; Ok (Some b, s)
  | KL2tp =>
      do _ <- use b s;
      let (empty, s) := decide s in
      if empty then
        do s <- buffer_free b s;
        do (out, s) <- alloc max s;
        do _ <- use out s;
        Ok (Some out, s)
      else Ok (Some b, s)
  | KGeneric | KPoly1305 | KComposed =>
      do _ <- use b s;
      do (out, s) <- alloc max s;
      do _ <- use b s;
      do _ <- use out s;
      let (ok, s) := decide s in
      if ok then
        do s <- buffer_free b s;
        do _ <- use out s;
        Ok (Some out, s)
      else
        do s <- buffer_free out s;
        Ok (None, s)
  end.

(** The [decrypt] functions: null.c L87-93, null-l2tp.c L127-148, generic_gmac.c L187-242, generic_umac.c L167-222,
    generic_poly1305.c L168-232, composed_gmac.c L225-288, composed_umac.c L203-266, cipher_test.c L144-189 *)
Definition decrypt (max : N) (k : kind) (b : nat) (s : pool) : res (option nat * pool) :=
  do _ <- use b s;
  match k with
  | KNull => Ok (Some b, s)
  | KL2tp => let (ok, s) := decide s in Ok (if ok then Some b else None, s)
  | KGeneric | KPoly1305 | KComposed =>
      let (ok, s) := decide s in
      if negb ok then Ok (None, s)
      else
        do (out, s) <- alloc max s;
        do _ <- use b s;
        do _ <- use out s;
        let (ok, s) := decide s in
        if ok then
          match k with
          | KComposed =>
              do _ <- use out s;
              do s <- buffer_free b s;
              Ok (Some out, s)
          | _ =>
              do s <- buffer_free b s;
              do _ <- use out s;
              Ok (Some out, s)
          end
        else
          do s <- buffer_free out s;
          do _ <- (match k with KPoly1305 => use b s | _ => Ok tt end);
          Ok (None, s)
  end.

(** ** Sending *)

(** [session_send], ec25519_fhmqvc.c L164-181 *)
Definition session_send (max : N) (b : nat) (s : pool) : res pool :=
  do _ <- use b s;
  let (k, s) := choose_kind s in
  do (out, s) <- encrypt max k b s;
  match out with
  | None => buffer_free b s
  | Some out => do _ <- use out s; buffer_free out s
  end.

(** [protocol_send], ec25519_fhmqvc.c L184-198 *)
Definition protocol_send (max : N) (b : nat) (s : pool) : res pool :=
  let (ok, s) := decide s in
  if ok then session_send max b s else buffer_free b s.

(** [fastd_protocol_ec25519_fhmqvc_send_empty], ec25519_fhmqvc.c L201-203 *)
Definition send_empty (max : N) (s : pool) : res pool :=
  do (b, s) <- alloc max s;
  session_send max b s.

(** [fastd_buffer_dup], buffer.h L43-47 *)
Definition buffer_dup (max : N) (b : nat) (s : pool) : res (nat * pool) :=
  do _ <- use b s;
  do (n, s) <- alloc max s;
  do _ <- use b s;
  do _ <- use n s;
  Ok (n, s).

(** [fastd_buffer_align], buffer.h L63-72 *)
Definition buffer_align (max : N) (b : nat) (s : pool) : res (nat * pool) :=
  do _ <- use b s;
  let (aligned, s) := decide s in
  if aligned then Ok (b, s)
  else
    do (n, s) <- buffer_dup max b s;
    do s <- buffer_free b s;
    Ok (n, s).

(** [send_all], send.c L159-176, with [n] peers left *)
Fixpoint send_all (max : N) (n : nat) (b : nat) (s : pool) : res pool :=
  match n with
  | O => buffer_free b s
  | S n =>
      let (skip, s) := decide s in
      if skip then send_all max n b s
      else
        match n with
        | O => protocol_send max b s
        | S _ =>
            do (d, s) <- buffer_dup max b s;
            do s <- protocol_send max d s;
            send_all max n b s
        end
  end.

(** [send_data_tap_single], send.c L179-214; true if done *)
Definition send_data_tap_single (max : N) (b : nat) (s : pool) : res (bool * pool) :=
  let (tap, s) := decide s in
  if negb tap then Ok (false, s)
  else
    do _ <- use b s;
    let (short, s) := decide s in
    if short then do s <- buffer_free b s; Ok (true, s)
    else
      let (found, s) := decide s in
      if negb found then Ok (false, s)
      else
        let (drop, s) := decide s in
        if drop then do s <- buffer_free b s; Ok (true, s)
        else do s <- protocol_send max b s; Ok (true, s).

(** [fastd_send_data], send.c L216-227 *)
Definition send_data (max : N) (b : nat) (s : pool) : res pool :=
  let (dest, s) := decide s in
  if dest then protocol_send max b s
  else
    do (done, s) <- send_data_tap_single max b s;
    if done then Ok s
    else
      let (n, s) := choose s in
      send_all max (N.to_nat n) b s.

(** [fastd_iface_handle], iface.c L427-445 *)
Definition iface_handle (max : N) (s : pool) : res pool :=
  do (b, s) <- alloc max s;
  do _ <- use b s;
  let (ok, s) := decide s in
  if negb ok then Fatal (* read failed *)
  else
    do _ <- use b s;
    send_data max b s.

(** ** Receiving data *)

(** [fastd_handle_receive], receive.c L288-329 *)
Definition handle_receive (max : N) (b : nat) (s : pool) : res pool :=
  let (iface, s) := decide s in
  if negb iface then buffer_free b s
  else
    do _ <- use b s;
    let (short, s) := decide s in
    if short then buffer_free b s
    else
      do _ <- use b s;
      let (forward, s) := decide s in
      if forward then
        do (b, s) <- buffer_align max b s;
        send_data max b s
      else buffer_free b s.

(** [protocol_handle_recv], ec25519_fhmqvc.c L109-161 *)
Definition handle_recv (max : N) (b : nat) (s : pool) : res pool :=
  let (ok, s) := decide s in
  if negb ok then buffer_free b s
  else
    do _ <- use b s;
    let (old, s) := decide s in
    do (recv, s) <- (if old then let (k, s) := choose_kind s in decrypt max k b s else Ok (None, s));
    do (recv, s) <-
      (match recv with
       | Some r => Ok (Some r, s)
       | None =>
           let (k, s) := choose_kind s in
           do (recv, s) <- decrypt max k b s;
           match recv with
           | None => Ok (None, s)
           | Some r =>
               let (first, s) := decide s in
               do s <- (if first then send_empty max s else Ok s);
               Ok (Some r, s)
           end
       end);
    match recv with
    | None => buffer_free b s
    | Some r =>
        do _ <- use r s;
        let (empty, s) := decide s in
        if empty then buffer_free r s else handle_receive max r s
    end.

(** ** Handshakes *)

(** [new_handshake] and what is added to the packet, handshake.c L153-276; [fastd_handshake_send_free], L279-301 *)
Definition send_new_handshake (max : N) (s : pool) : res pool :=
  do (b, s) <- alloc max s;
  do _ <- use b s;
  buffer_free b s.

(** [fastd_protocol_ec25519_fhmqvc_handshake_init], handshake.c L468-497 of the protocol; [fastd_handshake_send_error],
    handshake.c L304-329; [respond_handshake], L281-309 of the protocol: a packet is allocated, sent and freed, or the
    function returns before *)
Definition send_reply (max : N) (s : pool) : res pool :=
  let (no, s) := decide s in
  if no then Ok s else send_new_handshake max s.

(** [establish], L111-154: the responder sends an empty packet *)
Definition establish (max : N) (s : pool) : res (bool * pool) :=
  let (ok, s) := decide s in
  if negb ok then Ok (false, s)
  else
    let (initiator, s) := decide s in
    if initiator then Ok (true, s)
    else do s <- send_empty max s; Ok (true, s).

(** [finish_handshake] and [handle_finish_handshake], L312-400; [b] is the received packet *)
Definition finish_handshake (max : N) (b : nat) (s : pool) : res pool :=
  do _ <- use b s;
  let (method, s) := decide s in
  if negb method then send_reply max s
  else
    do _ <- use b s;
    let (valid, s) := decide s in
    if negb valid then Ok s
    else
      do (ok, s) <- establish max s;
      if ok then send_new_handshake max s else Ok s.
Definition handle_finish_handshake (max : N) (b : nat) (s : pool) : res pool :=
  do _ <- use b s;
  let (method, s) := decide s in
  if negb method then send_reply max s
  else
    do _ <- use b s;
    let (valid, s) := decide s in
    if negb valid then Ok s
    else do (_, s) <- establish max s; Ok s.

(** [fastd_handshake_handle], handshake.c L497-538, and [fastd_protocol_ec25519_fhmqvc_handshake_handle], L627-769 of
    the protocol: the packet is read, an error may be sent (by [check_records] or
    [fastd_handshake_check_mtu]), and it is handled according to its type *)
Definition handshake_handle (max : N) (b : nat) (s : pool) : res pool :=
  do _ <- use b s;
  let (error, s) := decide s in
  if error then send_reply max s
  else
    do _ <- use b s;
    let (type, s) := choose s in
    match type with
    | 0 => Ok s
    | 1 => do _ <- use b s; send_reply max s
    | 2 => finish_handshake max b s
    | _ => handle_finish_handshake max b s
    end.

(** ** Events *)

(** [handle_socket_receive], receive.c L174-240 *)
Definition handle_socket_receive (max : N) (b : nat) (s : pool) : res pool :=
  let (wrong, s) := decide s in
  if wrong then buffer_free b s
  else
    do _ <- use b s;
    let (invalid, s) := decide s in
    if invalid then buffer_free b s
    else
      do _ <- use b s;
      let (data, s) := decide s in
      if data then handle_recv max b s
      else
        let (what, s) := choose s in
        do s <- (match what with
                 | 0 => Ok s
                 | 1 => handshake_handle max b s
                 | _ => send_reply max s
                 end);
        buffer_free b s.

(** [fastd_receive], receive.c L243-285 *)
Definition receive (max : N) (s : pool) : res pool :=
  do (b, s) <- alloc max s;
  do _ <- use b s;
  let (ok, s) := decide s in
  if negb ok then buffer_free b s
  else
    do _ <- use b s;
    handle_socket_receive max b s.

(** [fastd_peer_handle_task], peer.c L983-1008, with [handle_task_handshake] *)
Definition handle_task (max : N) (s : pool) : res pool :=
  let (reset, s) := decide s in
  if reset then Ok s
  else
    let (keepalive, s) := decide s in
    do s <- (if keepalive then do (b, s) <- alloc max s; protocol_send max b s else Ok s);
    send_reply max s.

(** Events: a packet on a socket, a packet from an interface, a peer's task, the result of a verification
    (which leads to a response).  Nothing else uses buffers. *)
Inductive bevent : Set := BReceive | BIface | BTask | BVerified.
Definition handle (max : N) (e : bevent) (s : pool) : res pool :=
  match e with
  | BReceive => receive max s
  | BIface => iface_handle max s
  | BTask => handle_task max s
  | BVerified => send_reply max s
  end.
(** Each event comes with its choices *)
Fixpoint run (max : N) (l : list (bevent * list N)) (s : pool) : res pool :=
  match l with
  | [] => Ok s
  | (e, c) :: l => do s <- handle max e (mk_pool (p_cells s) (p_head s) c); run max l s
  end.
Definition init (n : nat) : res pool := init_buffers n (mk_pool [] None []).
