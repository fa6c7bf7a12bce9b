(** Handshake packets: composing and parsing TLV records, the checks of
    [fastd_handshake_handle], error replies and method negotiation.
    Source: src/handshake.h, src/handshake.c. *)
From Verif Require Import Base BufferModel MethodModel.

(** handshake.h L34-51 *)
Definition R_TYPE : nat := 0.
Definition R_REPLY_CODE : nat := 1.
Definition R_ERROR_DETAIL : nat := 2.
Definition R_FLAGS : nat := 3.
Definition R_MODE : nat := 4.
Definition R_PROTOCOL_NAME : nat := 5.
Definition R_SENDER_KEY : nat := 6.
Definition R_RECIPIENT_KEY : nat := 7.
Definition R_SENDER_HANDSHAKE_KEY : nat := 8.
Definition R_RECIPIENT_HANDSHAKE_KEY : nat := 9.
Definition R_HANDSHAKE_TAG : nat := 10.
Definition R_MTU : nat := 11.
Definition R_METHOD_NAME : nat := 12.
Definition R_VERSION_NAME : nat := 13.
Definition R_METHOD_LIST : nat := 14.
Definition R_TLV_MAC : nat := 15.
Definition RECORD_MAX : nat := 16.

(** handshake.h L54-59 *)
Definition REPLY_SUCCESS : N := 0.
Definition REPLY_MANDATORY_MISSING : N := 1.
Definition REPLY_UNACCEPTABLE_VALUE : N := 2.

Definition RECORD_LEN (len : nat) : nat := len + 4.
Definition FLAG_L2TP_SUPPORT : N := 1.
Definition PACKET_HANDSHAKE : N := 1.

(** ** Composing (handshake.h L126-223)

    A packet under construction is the list of its bytes from [buffer->data] on;
    [cap] is the number of bytes from there to [buffer->base + ctx.max_buffer]. *)

(** [fastd_handshake_tlv_len], handshake.h L130-133 *)
Definition tlv_len_of (pkt : bytes) : N := (nth 2 pkt 0 * 256 + nth 3 pkt 0)%N.

(** [fastd_handshake_extend], handshake.h L136-155, together with the writing of
    the value; lengths and types are stored in 16 bits *)
Definition hs_add (cap : nat) (pkt : bytes) (ty : nat) (value : bytes) : res bytes :=
  let len := length value in
  if Nat.ltb cap (length pkt + RECORD_LEN len) then Bug
  else
    let newlen := ((tlv_len_of pkt + N.of_nat (RECORD_LEN len)) mod 65536)%N in
    Ok (firstn 2 pkt ++ be_bytes 2 newlen ++ skipn 4 pkt
        ++ le_bytes 2 (N.of_nat ty) ++ le_bytes 2 (N.of_nat len) ++ value).

(** handshake.h L176-223 *)
Definition hs_add_uint8 cap pkt ty (v : N) := hs_add cap pkt ty (le_bytes 1 v).
Definition hs_add_uint16 cap pkt ty (v : N) := hs_add cap pkt ty (le_bytes 2 v).
Definition hs_add_uint24 cap pkt ty (v : N) := hs_add cap pkt ty (le_bytes 3 v).
Definition hs_add_uint32 cap pkt ty (v : N) := hs_add cap pkt ty (le_bytes 4 v).
Definition hs_add_uint cap pkt ty (v : N) : res bytes :=
  if (16777215 <? v)%N then hs_add_uint32 cap pkt ty v
  else if (65535 <? v)%N then hs_add_uint24 cap pkt ty v
  else if (255 <? v)%N then hs_add_uint16 cap pkt ty v
  else hs_add_uint8 cap pkt ty v.

(** the empty packet structure, handshake.c L181-184, L313-316 *)
Definition hs_empty : bytes := [PACKET_HANDSHAKE; 0; 0; 0]%N.

(** Values of the configuration used when composing. *)
Record hs_conf := mk_hs_conf {
  hc_protocol : bytes;     (* conf.protocol->name *)
  hc_version : bytes;      (* FASTD_VERSION *)
  hc_mode_id : N;          (* get_mode_id(), handshake.c L81-94 *)
  hc_max_buffer : nat      (* ctx.max_buffer *)
}.

(** [create_method_list], handshake.c L97-123: names separated by zero bytes *)
Fixpoint create_method_list (methods : list bytes) : bytes :=
  match methods with
  | [] => []
  | [m] => m
  | m :: r => m ++ 0%N :: create_method_list r
  end.

Definition CONTROL_HEADER_LEN : nat := 12.
Definition HS_MAX : nat := 1232.    (* MAX_HANDSHAKE_SIZE *)

(** the size computed in [new_handshake], handshake.c L164-176 *)
Definition hs_space (c : hs_conf) (mtu : N) (method : option bytes) (methods : list bytes) (tail : nat) : nat :=
  CONTROL_HEADER_LEN + 4 + 4 * RECORD_LEN 1 +
  (if N.eqb mtu 0 then 0 else RECORD_LEN 2) +
  RECORD_LEN (length (hc_version c)) +
  RECORD_LEN (length (hc_protocol c)) +
  RECORD_LEN (match method with Some m => length m | None => 0 end) +
  RECORD_LEN (length (create_method_list methods)) +
  tail.

(** [new_handshake], handshake.c L152-212.  The empty list stands for
    [methods == NULL].  The result is the packet and its [cap]. *)
Definition new_handshake (c : hs_conf) (type mtu : N) (method : option bytes) (methods : list bytes)
    (tail : nat) : res (nat * bytes) :=
  let space := hs_space c mtu method methods tail in
  if Nat.ltb HS_MAX space then Bug
  else if Nat.ltb (hc_max_buffer c) (alignto space 16) then Fatal
  else
  let cap := hc_max_buffer c - CONTROL_HEADER_LEN in
  do p <- hs_add_uint8 cap hs_empty R_TYPE type;
  do p <- hs_add_uint8 cap p R_FLAGS FLAG_L2TP_SUPPORT;
  do p <- hs_add_uint8 cap p R_MODE (hc_mode_id c);
  do p <- (if N.eqb mtu 0 then Ok p else hs_add_uint16 cap p R_MTU mtu);
  do p <- hs_add cap p R_VERSION_NAME (hc_version c);
  do p <- hs_add cap p R_PROTOCOL_NAME (hc_protocol c);
  do p <- match method, methods with
          | Some m, [] => hs_add cap p R_METHOD_NAME m
          | _, _ => Ok p
          end;
  do p <- match methods with
          | [] => Ok p
          | _ => hs_add cap p R_METHOD_LIST (create_method_list methods)
          end;
  Ok (cap, p).

(** [fastd_handshake_new_init] / [fastd_handshake_new_reply], handshake.c L215-226 *)
Definition new_init c tail := new_handshake c 1 0 None [] tail.
Definition new_reply c type mtu method methods tail : res (nat * bytes) :=
  do (cap, p) <- new_handshake c type mtu method methods tail;
  do p <- hs_add_uint8 cap p R_REPLY_CODE 0;
  Ok (cap, p).

Definition KEY_LEN : nat := 32.    (* PUBLICKEYBYTES, HASHBYTES *)

(** The packets of the protocol, src/protocols/ec25519_fhmqvc/handshake.c:
    [handshake_init] L450-481, [respond_handshake] L279-309, [finish_handshake]
    L343-362.  The MAC record is added with zeros; the MAC is computed over the
    TLV data and then stored in it. *)
Definition build_init (c : hs_conf) (sender : bytes) (recipient : option bytes) (eph : bytes) : res bytes :=
  do (cap, p) <- new_init c (3 * RECORD_LEN KEY_LEN);
  do p <- hs_add cap p R_SENDER_KEY sender;
  do p <- match recipient with Some k => hs_add cap p R_RECIPIENT_KEY k | None => Ok p end;
  hs_add cap p R_SENDER_HANDSHAKE_KEY eph.

Definition build_reply (c : hs_conf) (type mtu : N) (method : option bytes) (methods : list bytes)
    (sender recipient eph reph : bytes) (mac : bytes -> bytes) : res bytes :=
  do (cap, p) <- new_reply c type mtu method methods (4 * RECORD_LEN KEY_LEN + RECORD_LEN KEY_LEN);
  do p <- hs_add cap p R_SENDER_KEY sender;
  do p <- hs_add cap p R_RECIPIENT_KEY recipient;
  do p <- hs_add cap p R_SENDER_HANDSHAKE_KEY eph;
  do p <- hs_add cap p R_RECIPIENT_HANDSHAKE_KEY reph;
  do p <- hs_add cap p R_TLV_MAC (repeat 0%N KEY_LEN);
  let tag := mac (slice p 4 (N.to_nat (tlv_len_of p))) in
  Ok (firstn (length p - KEY_LEN) p ++ tag).

(** [fastd_handshake_send_error], handshake.c L303-325 *)
Definition build_error (max_buffer : nat) (type reply_code detail : N) : res bytes :=
  let space := CONTROL_HEADER_LEN + 4 + 4 * RECORD_LEN 1 in
  if Nat.ltb max_buffer (alignto space 16) then Fatal
  else
  let cap := max_buffer - CONTROL_HEADER_LEN in
  do p <- hs_add_uint8 cap hs_empty R_TYPE ((type + 1) mod 256);
  do p <- hs_add_uint8 cap p R_FLAGS FLAG_L2TP_SUPPORT;
  do p <- hs_add_uint8 cap p R_REPLY_CODE reply_code;
  hs_add_uint cap p R_ERROR_DETAIL detail.

(** [fastd_handshake_send_free], handshake.c L277-300: the datagrams sent;
    [None] is FLAG_INITIAL *)
Definition control_header : bytes := [200; 3; 0; 12; 0; 0; 0; 0; 0; 0; 0; 0]%N.
Definition send_free (pkt : bytes) (flags : option N) : list bytes :=
  match flags with
  | None => [pkt; control_header ++ pkt]
  | Some f => if N.eqb (N.land f FLAG_L2TP_SUPPORT) 0 then [pkt] else [control_header ++ pkt]
  end.

(** ** Parsing (handshake.c L328-366)

    [pkt] is exactly the received data after an optional control header; every
    access outside of it is [UB].  A record is its offset in [pkt] and its length. *)
Definition record := (nat * nat)%type.
Record handshake := mk_handshake {
  h_type : N;
  h_flags : N;
  h_records : nat -> option record;
  h_tlv_len : nat
}.

Definition set_record (f : nat -> option record) (ty : nat) (r : record) : nat -> option record :=
  fun t => if Nat.eqb t ty then Some r else f t.

(** the loop, L344-363; positions are offsets in [pkt].  The fuel is the number
    of remaining bytes; running out of it is [Bug] (proved impossible). *)
Fixpoint parse_loop (fuel : nat) (pkt : bytes) (ptr end_ : nat) (recs : nat -> option record)
    : res (nat -> option record) :=
  match fuel with
  | O => Bug
  | S fuel =>
      if Nat.ltb end_ (ptr + 4) then Ok recs
      else
      do h <- read pkt ptr 4;
      let type := N.to_nat (nth 0 h 0 + nth 1 h 0 * 256)%N in
      let len := N.to_nat (nth 2 h 0 + nth 3 h 0 * 256)%N in
      if Nat.ltb end_ (ptr + RECORD_LEN len) then Ok recs
      else
        let recs := if Nat.ltb type RECORD_MAX then set_record recs type (ptr + 4, len) else recs in
        parse_loop fuel pkt (ptr + RECORD_LEN len) end_ recs
  end.

(** [None]: [tlv_data] is NULL *)
Definition parse_tlvs (pkt : bytes) : res (option handshake) :=
  if Nat.ltb (length pkt) 4 then Ok None
  else
  do h <- read pkt 0 4;
  let tlv_len := N.to_nat (tlv_len_of h) in
  if Nat.ltb (length pkt) (4 + tlv_len) then Ok None
  else
  do recs <- parse_loop (S tlv_len) pkt 4 (4 + tlv_len) (fun _ => None);
  Ok (Some {| h_type := 0; h_flags := 0; h_records := recs; h_tlv_len := tlv_len |}).

Definition rec_len (h : handshake) (ty : nat) : nat :=
  match h_records h ty with Some (_, l) => l | None => 0 end.
Definition rec_present (h : handshake) (ty : nat) : bool :=
  match h_records h ty with Some _ => true | None => false end.

(** the [n] first bytes at a record's data pointer; a NULL pointer is [UB] *)
Definition rec_read (pkt : bytes) (h : handshake) (ty n : nat) : res bytes :=
  match h_records h ty with
  | Some (off, _) => read pkt off n
  | None => UB
  end.

(** [as_uint8] .. [as_uint], handshake.c L42-77 *)
Definition as_uint8 pkt h ty : res N := do b <- rec_read pkt h ty 1; Ok (nth 0 b 0%N).
Definition as_uint16 pkt h ty : res N := do b <- rec_read pkt h ty 2; Ok (nth 1 b 0 * 256 + nth 0 b 0)%N.
Definition as_uint24 pkt h ty : res N :=
  do b <- rec_read pkt h ty 3; Ok (nth 2 b 0 * 65536 + nth 1 b 0 * 256 + nth 0 b 0)%N.
Definition as_uint32 pkt h ty : res N :=
  do b <- rec_read pkt h ty 4; Ok (nth 3 b 0 * 16777216 + nth 2 b 0 * 65536 + nth 1 b 0 * 256 + nth 0 b 0)%N.
Definition as_uint pkt h ty : res N :=
  match rec_len h ty with
  | 0 => Ok 0%N
  | 1 => as_uint8 pkt h ty
  | 2 => as_uint16 pkt h ty
  | 3 => as_uint24 pkt h ty
  | 4 => as_uint32 pkt h ty
  | _ => Ok 4294967295%N
  end.

(** C strings in a buffer: the bytes before the first zero (strnlen) *)
Fixpoint c_str (l : bytes) : bytes :=
  match l with
  | [] => []
  | b :: r => if N.eqb b 0 then [] else b :: c_str r
  end.

(** [string_equal] / [record_equal], handshake.c L126-136: equal lengths up to
    the first zero byte, and strncmp equal *)
Definition string_equal (str buf : bytes) : bool :=
  (Nat.eqb (length str) (length (c_str buf)) && bytes_eqb str (firstn (length str) buf))%bool.

(** ** Handling (handshake.c L381-423, L514-556) *)
Inductive hs_outcome :=
| HIgnore                                  (* no further effect but log messages *)
| HError (code detail : N) (h : handshake) (* an error reply is sent *)
| HProtocol (h : handshake).               (* passed on to the protocol *)

(** [check_records], handshake.c L381-423 *)
Definition check_records (c : hs_conf) (pkt : bytes) (h : handshake) : res hs_outcome :=
  if (rec_present h R_FLAGS && (negb (Nat.eqb (rec_len h R_FLAGS) 1) || negb (N.eqb (N.ldiff (h_flags h) 1) 0)))%bool
  then Ok (HError REPLY_UNACCEPTABLE_VALUE (N.of_nat R_FLAGS) h)
  else
  do proto_ok <- (if rec_present h R_PROTOCOL_NAME then
                    do d <- rec_read pkt h R_PROTOCOL_NAME (rec_len h R_PROTOCOL_NAME);
                    Ok (string_equal (hc_protocol c) d)
                  else Ok true);
  if negb proto_ok then Ok (HError REPLY_UNACCEPTABLE_VALUE (N.of_nat R_PROTOCOL_NAME) h)
  else
  do mode_ok <- (if rec_present h R_MODE then
                   if negb (Nat.eqb (rec_len h R_MODE) 1) then Ok false
                   else do m <- as_uint8 pkt h R_MODE; Ok (N.eqb m (hc_mode_id c))
                 else Ok true);
  if negb mode_ok then Ok (HError REPLY_UNACCEPTABLE_VALUE (N.of_nat R_MODE) h)
  else if (1 <? h_type h)%N then
    if negb (Nat.eqb (rec_len h R_REPLY_CODE) 1) then Ok HIgnore
    else
      do rc <- as_uint8 pkt h R_REPLY_CODE;
      if negb (N.eqb rc REPLY_SUCCESS) then
        (* print_error_reply, L369-378, reads the error detail *)
        do _ <- (if (Nat.eqb (rec_len h R_ERROR_DETAIL) 1 || Nat.eqb (rec_len h R_ERROR_DETAIL) 2)%bool
                 then as_uint pkt h R_ERROR_DETAIL else Ok 0%N);
        Ok HIgnore
      else Ok (HProtocol h)
  else Ok (HProtocol h).

(** [fastd_handshake_handle], handshake.c L514-556.  The version name is copied
    (L547-551, a read of the record). *)
Definition handshake_handle (c : hs_conf) (pkt : bytes) (has_control_header : bool) : res hs_outcome :=
  do oh <- parse_tlvs pkt;
  match oh with
  | None => Ok HIgnore
  | Some h =>
      if negb (Nat.eqb (rec_len h R_TYPE) 1) then Ok HIgnore
      else
      do ty <- as_uint8 pkt h R_TYPE;
      do fl <- (if Nat.leb 1 (rec_len h R_FLAGS) then as_uint8 pkt h R_FLAGS else Ok 0%N);
      let h := {| h_type := ty; h_flags := fl; h_records := h_records h; h_tlv_len := h_tlv_len h |} in
      if (negb has_control_header && negb (N.eqb (N.land fl FLAG_L2TP_SUPPORT) 0))%bool then Ok HIgnore
      else
      do r <- check_records c pkt h;
      match r with
      | HProtocol h =>
          do _ <- (if (N.ltb 1 (h_type h) && rec_present h R_VERSION_NAME)%bool
                   then rec_read pkt h R_VERSION_NAME (rec_len h R_VERSION_NAME) else Ok []);
          Ok (HProtocol h)
      | r => Ok r
      end
  end.

(** [has_field], protocols/ec25519_fhmqvc/handshake.c L160-162 *)
Definition has_field (h : handshake) (ty len : nat) : bool := Nat.eqb (rec_len h ty) len.

(** ** Method negotiation *)

(** [parse_string_list], handshake.c L139-152: the result is in reverse order.
    Fuel: the number of bytes. *)
Fixpoint parse_string_list (fuel : nat) (data : bytes) (acc : list bytes) : list bytes :=
  match fuel, data with
  | S fuel, _ :: _ =>
      let part := c_str data in
      parse_string_list fuel (skipn (length part + 1) data) (part :: acc)
  | _, _ => acc
  end.

Definition contains (methods : list bytes) (m : bytes) : bool := existsb (bytes_eqb m) methods.

(** [fastd_handshake_get_method_by_name_list], handshake.c L457-485; a method is
    its name; [list_data] is the value of the method list record, if present *)
Definition get_method_by_name_list (methods : list bytes) (list_data : option bytes) : option bytes :=
  match list_data with
  | None | Some [] => None
  | Some d =>
      fold_left (fun method name => if contains methods name then Some name else method)
                (parse_string_list (length d) d []) None
  end.

(** [get_method_by_name] / [fastd_handshake_get_method_by_name], handshake.c
    L443-454, L487-498: a zero byte in the record ends the name *)
Definition get_method_by_name (methods : list bytes) (name_data : option bytes) : option bytes :=
  match name_data with
  | None => None
  | Some d => let name0 := c_str d in if contains methods name0 then Some name0 else None
  end.

(** [fastd_config_method], config.c L71-82: the list keeps its order, names
    already present are ignored *)
Definition config_method (methods : list bytes) (name : bytes) : list bytes :=
  if contains methods name then methods else methods ++ [name].

(** ** Dispatch of received datagrams, [handle_socket_receive], receive.c L152-242

    [ctl] tells if there was a control header (types.h L36-66). *)
Inductive pkt_class :=
| PHandshake (pkt : bytes) (ctl : bool)
| PData (pkt : bytes) (ctl : bool)
| PInvalid.

Definition classify_inner (pkt : bytes) (ctl : bool) : pkt_class :=
  let ty := nth 0 pkt 0%N in
  if N.eqb ty PACKET_HANDSHAKE then PHandshake pkt ctl
  else if N.eqb (N.land ty 128) 0 then PData pkt ctl
  else PInvalid.

Definition classify (d : bytes) : pkt_class :=
  match d with
  | [] => PInvalid      (* recvmsg returned 0, receive.c L264-271 *)
  | ty :: _ =>
      if N.eqb ty 200 then
        if Nat.ltb (length d) 13 then PInvalid
        else if N.eqb (N.land (nth 1 d 0%N) 15) 3 then classify_inner (skipn 12 d) true
        else PInvalid
      else classify_inner d false
  end.
