(** * Netlink messages

    The part of the bundled libmnl (src/dep/libmnl) that fastd uses, and the functions of
    src/offload/l2tp/l2tp.c that build requests to the kernel and read its replies, at
    the level of the bytes in the buffers.

    Modelled: attr.c L37-120, L133-247, L263-274, L352-357, L392-397, L408-421, L430-466,
    L508-513; nlmsg.c L53-140, L155-198, L211-237; callback.c L14-103, L158-162;
    [mnl_socket_get_portid], [mnl_socket_sendto] and [mnl_socket_recvfrom] of socket.c;
    libmnl.h L20, L40-42, L83, [mnl_attr_for_each]; l2tp.c L41-259.

    A buffer is a list of bytes and a pointer into it an offset, so only reading or
    writing outside of the buffer is seen, not a misaligned access (all offsets used are
    multiples of 4).  `int` has 32 bits and wraps on conversion, pointers have 64 bits.
    [le] says whether the host is little-endian, as Netlink uses the order of the host.

    Not modelled: [mnl_nlmsg_fprintf], batches, nested attributes, the functions of libmnl
    which fastd does not call, opening and closing the socket. *)

From Coq Require Import List NArith ZArith Bool.
Import ListNotations.
Local Open Scope Z_scope.

Notation byte := N (only parsing).

(** What running a piece of code leads to: a result; undefined behaviour, that is an access
    outside of the buffer or a signed overflow; more passes of a loop than were allowed;
    waiting for a message that does not come *)
Inductive out (A : Type) : Type :=
  | Done (a : A)
  | Undefined
  | Endless
  | Waiting.
Arguments Done {A} a.
Arguments Undefined {A}.
Arguments Endless {A}.
Arguments Waiting {A}.

Definition bind {A B : Type} (x : out A) (f : A -> out B) : out B :=
  match x with Done a => f a | Undefined => Undefined | Endless => Endless | Waiting => Waiting end.
Notation "x <- e ;; f" := (bind e (fun x => f)) (at level 61, e at next level, right associativity).

(** ** Numbers *)

(** Conversion to `uint32_t` and to `int` *)
Definition u32 (z : Z) : Z := z mod 2 ^ 32.
Definition int (z : Z) : Z := (z + 2 ^ 31) mod 2 ^ 32 - 2 ^ 31.

(** MNL_ALIGN (libmnl.h L41) of a `uint16_t` or of a size, and of a `uint32_t` *)
Definition align (n : Z) : Z := (n + 3) / 4 * 4.
Definition align32 (n : Z) : Z := u32 (n + 3) / 4 * 4.

(** The [k] bytes of a number in memory, least significant first *)
Fixpoint le_bytes (k : nat) (z : Z) : list byte :=
  match k with O => [] | S k => Z.to_N (z mod 256) :: le_bytes k (z / 256) end.
Fixpoint le_value (l : list byte) : Z :=
  match l with [] => 0 | b :: l => Z.of_N b + 256 * le_value l end.
Definition host (le : bool) (l : list byte) : list byte := if le then l else rev l.

(** ** Memory *)

Definition size (b : list byte) : Z := Z.of_nat (length b).

(** [len] bytes at offset [p] *)
Definition read (b : list byte) (p len : Z) : out (list byte) :=
  if (0 <=? p) && (0 <=? len) && (p + len <=? size b)
  then Done (firstn (Z.to_nat len) (skipn (Z.to_nat p) b)) else Undefined.
Definition write (b : list byte) (p : Z) (d : list byte) : out (list byte) :=
  if (0 <=? p) && (p + size d <=? size b)
  then Done (firstn (Z.to_nat p) b ++ d ++ skipn (Z.to_nat (p + size d)) b) else Undefined.

Definition read_num (le : bool) (k : Z) (b : list byte) (p : Z) : out Z :=
  l <- read b p k ;; Done (le_value (host le l)).
Definition write_num (le : bool) (k : Z) (b : list byte) (p z : Z) : out (list byte) :=
  write b p (host le (le_bytes (Z.to_nat k) z)).

(** ** Building messages; the message starts at offset 0 *)

Definition HDRLEN : Z := 16.       (* MNL_NLMSG_HDRLEN *)
Definition ATTR_HDRLEN : Z := 4.   (* MNL_ATTR_HDRLEN *)

(** The fields of struct nlmsghdr *)
Definition get_len (le : bool) (b : list byte) (p : Z) : out Z := read_num le 4 b p.
Definition get_msg_type (le : bool) (b : list byte) (p : Z) : out Z := read_num le 2 b (p + 4).
Definition get_flags (le : bool) (b : list byte) (p : Z) : out Z := read_num le 2 b (p + 6).
Definition get_seq (le : bool) (b : list byte) (p : Z) : out Z := read_num le 4 b (p + 8).
Definition get_pid (le : bool) (b : list byte) (p : Z) : out Z := read_num le 4 b (p + 12).
Definition set_len (le : bool) (b : list byte) (z : Z) : out (list byte) := write_num le 4 b 0 (u32 z).

(** [mnl_nlmsg_put_header], nlmsg.c L83-91 *)
Definition put_header (le : bool) (b : list byte) : out (list byte) :=
  b <- write b 0 (repeat 0%N 16) ;;
  set_len le b HDRLEN.

(** [mnl_nlmsg_put_extra_header], nlmsg.c L105-112; returns the offset of the header, too *)
Definition put_extra_header (le : bool) (b : list byte) (sz : Z) : out (list byte * Z) :=
  p <- get_len le b 0 ;;
  let len := align sz in
  b <- set_len le b (p + len) ;;
  b <- write b p (repeat 0%N (Z.to_nat len)) ;;
  Done (b, p).

(** [mnl_attr_put], attr.c L409-420 *)
Definition attr_put (le : bool) (b : list byte) (type : Z) (data : list byte) : out (list byte) :=
  n <- get_len le b 0 ;;
  let p := align32 n in
  let payload_len := (align 4 + size data) mod 2 ^ 16 in
  b <- write_num le 2 b (p + 2) type ;;
  b <- write_num le 2 b p payload_len ;;
  b <- write b (p + ATTR_HDRLEN) data ;;
  n <- get_len le b 0 ;;
  set_len le b (n + align payload_len).

(** [mnl_attr_put_u8], [mnl_attr_put_u16] and [mnl_attr_put_u32], attr.c L431-466 *)
Definition attr_put_num (le : bool) (k : nat) (b : list byte) (type z : Z) : out (list byte) :=
  attr_put le b type (host le (le_bytes k z)).
(** [mnl_attr_put_strz], attr.c L509-513; [s] is the string up to its zero *)
Definition attr_put_strz (le : bool) (b : list byte) (type : Z) (s : list byte) : out (list byte) :=
  attr_put le b type (s ++ [0%N]).

(** *** The requests of l2tp.c *)

Inductive request :=
  | Family                                          (* [genl_get_family_id], L116-139 *)
  | TunnelCreate (fd conn_id : Z)                   (* L149-168 *)
  | SessionCreate (conn_id : Z) (ifname : option (list byte))   (* L175-197 *)
  | SessionGet (conn_id : Z)                        (* L216-236 *)
  | SessionDelete (conn_id : Z).                    (* L239-256 *)

(** The beginning all requests have in common; NLM_F_REQUEST | NLM_F_ACK is 5 *)
Definition request_start (le : bool) (b : list byte) (type cmd version : Z) : out (list byte) :=
  b <- put_header le b ;;
  b <- write_num le 2 b 4 type ;;
  b <- write_num le 2 b 6 5 ;;
  r <- put_extra_header le b 4 ;;
  let (b, gh) := r in
  b <- write b gh [Z.to_N cmd] ;;
  write b (gh + 1) [Z.to_N version].

(** "l2tp" *)
Definition family_name : list byte := [108; 50; 116; 112]%N.

(** The message in the buffer [b], which the functions set to zero before *)
Definition build (le : bool) (b : list byte) (family_id : Z) (r : request) : out (list byte) :=
  match r with
  | Family =>
      b <- request_start le b 16 3 1 ;;
      attr_put_strz le b 2 family_name
  | TunnelCreate fd conn_id =>
      b <- request_start le b family_id 1 1 ;;
      b <- attr_put_num le 4 b 9 conn_id ;;
      b <- attr_put_num le 4 b 10 1 ;;
      b <- attr_put_num le 1 b 7 3 ;;
      b <- attr_put_num le 2 b 2 0 ;;
      attr_put_num le 4 b 23 (u32 fd)
  | SessionCreate conn_id ifname =>
      b <- request_start le b family_id 5 1 ;;
      b <- attr_put_num le 4 b 9 conn_id ;;
      b <- attr_put_num le 4 b 11 1 ;;
      b <- attr_put_num le 4 b 12 1 ;;
      b <- attr_put_num le 2 b 1 5 ;;
      b <- attr_put_num le 1 b 5 0 ;;
      match ifname with
      | Some s => attr_put_strz le b 8 s
      | None => Done b
      end
  | SessionGet conn_id =>
      b <- request_start le b family_id 8 1 ;;
      b <- attr_put_num le 4 b 9 conn_id ;;
      attr_put_num le 4 b 11 1
  | SessionDelete conn_id =>
      b <- request_start le b family_id 6 1 ;;
      b <- attr_put_num le 4 b 9 conn_id ;;
      attr_put_num le 4 b 11 1
  end.

(** ** Reading messages *)

Definition ESRCH := 3.
Definition EINTR := 4.
Definition EINVAL := 22.
Definition ERANGE := 34.
Definition EPROTO := 71.
Definition EBADMSG := 74.

Definition CB_ERROR := -1.
Definition CB_STOP := 0.
Definition CB_OK := 1.

(** [mnl_attr_ok], attr.c L98-103 *)
Definition attr_ok (le : bool) (b : list byte) (p len : Z) : out bool :=
  if len <? 4 then Done false
  else n <- read_num le 2 b p ;; Done ((4 <=? n) && (n <=? len)).

(** [mnl_attr_get_type] and [mnl_attr_get_payload_len], attr.c L39-42, L64-67 *)
Definition attr_get_type (le : bool) (b : list byte) (p : Z) : out Z :=
  t <- read_num le 2 b (p + 2) ;; Done (t mod 2 ^ 14).
Definition attr_get_payload_len (le : bool) (b : list byte) (p : Z) : out Z :=
  n <- read_num le 2 b p ;; Done ((n - ATTR_HDRLEN) mod 2 ^ 16).

(** [mnl_attr_validate] (attr.c L143-226) for MNL_TYPE_U16 and MNL_TYPE_NUL_STRING; the
    result is the error number, if there is an error *)
Definition validate_u16 (le : bool) (b : list byte) (p : Z) : out (option Z) :=
  n <- attr_get_payload_len le b p ;;
  if n <? 2 then Done (Some ERANGE) else if n >? 2 then Done (Some ERANGE) else Done None.
Definition validate_nul_string (le : bool) (b : list byte) (p : Z) : out (option Z) :=
  n <- attr_get_payload_len le b p ;;
  if n =? 0 then Done (Some ERANGE)
  else c <- read_num le 1 b (p + ATTR_HDRLEN + (n - 1)) ;;
       if c =? 0 then Done None else Done (Some EINVAL).

(** A callback gets the buffer, the position of the attribute, errno and its data, and
    gives its result, errno and data *)
Definition attr_cb (D : Type) : Type := list byte -> Z -> Z -> D -> out (Z * Z * D).

(** [getfamily_cb], l2tp.c L101-114 *)
Definition getfamily_cb (le : bool) : attr_cb Z := fun b p errno id =>
  t <- attr_get_type le b p ;;
  if t =? 1 then
    v <- validate_u16 le b p ;;
    match v with
    | Some e => Done (CB_ERROR, e, id)
    | None => id <- read_num le 2 b (p + ATTR_HDRLEN) ;; Done (CB_OK, errno, id)
    end
  else Done (CB_OK, errno, id).

(** `strncpy(dest, src, n)` where [src] is at [p] *)
Fixpoint strncpy (n : nat) (b : list byte) (p : Z) : out (list byte) :=
  match n with
  | O => Done []
  | S k => c <- read b p 1 ;;
           if (hd 0%N c =? 0)%N then Done (repeat 0%N n)
           else r <- strncpy k b (p + 1) ;; Done (c ++ r)
  end.

(** [session_get_ifname_cb], l2tp.c L200-213; the data is the array of IFNAMSIZ = 16 bytes *)
Definition get_ifname_cb (le : bool) : attr_cb (list byte) := fun b p errno ifname =>
  t <- attr_get_type le b p ;;
  if t =? 8 then
    v <- validate_nul_string le b p ;;
    match v with
    | Some e => Done (CB_ERROR, e, ifname)
    | None => s <- strncpy 15 b (p + ATTR_HDRLEN) ;; Done (CB_OK, errno, s ++ [0%N])
    end
  else Done (CB_OK, errno, ifname).

(** The loop in [mnl_attr_parse] (attr.c L264-274), with [mnl_attr_for_each] and [mnl_attr_next]
    (attr.c L114-117); [tail] is where the message ends, [p] the attribute and [res] the
    result so far *)
Fixpoint attr_loop {D : Type} (le : bool) (cb : attr_cb D) (b : list byte) (tail : Z)
    (fuel : nat) (p res errno : Z) (d : D) : out (Z * Z * D) :=
  match fuel with
  | O => Endless
  | S fuel =>
      ok <- attr_ok le b p (int (tail - p)) ;;
      if negb ok then Done (res, errno, d)
      else
        r <- cb b p errno d ;;
        let '(res, errno, d) := r in
        if res <=? CB_STOP then Done (res, errno, d)
        else n <- read_num le 2 b p ;; attr_loop le cb b tail fuel (p + align n) res errno d
  end.

(** [mnl_attr_parse], called by [parse_cb] (l2tp.c L48-52) for the message at [p] *)
Definition attr_parse {D : Type} (le : bool) (cb : attr_cb D) (b : list byte) (fuel : nat)
    (p offset errno : Z) (d : D) : out (Z * Z * D) :=
  n <- get_len le b p ;;
  attr_loop le cb b (p + align32 n) fuel (p + HDRLEN + align offset) CB_OK errno d.

(** [mnl_nlmsg_ok], nlmsg.c L157-162 *)
Definition nlmsg_ok (le : bool) (b : list byte) (p len : Z) : out bool :=
  if len <? HDRLEN then Done false
  else n <- get_len le b p ;; Done ((HDRLEN <=? n) && (int n <=? len)).

(** [mnl_nlmsg_seq_ok] and [mnl_nlmsg_portid_ok], nlmsg.c L213-236 *)
Definition seq_ok (m seq : Z) : bool := if negb (m =? 0) && negb (seq =? 0) then m =? seq else true.

(** [mnl_cb_error], callback.c L19-34 *)
Definition cb_error (le : bool) (b : list byte) (p : Z) : out (Z * Z) :=
  n <- get_len le b p ;;
  if n <? HDRLEN + 20 then Done (CB_ERROR, EBADMSG)
  else
    e <- read_num le 4 b (p + HDRLEN) ;;
    let e := int e in
    if e =? - 2 ^ 31 then Undefined
    else Done (if e =? 0 then CB_STOP else CB_ERROR, if e <? 0 then - e else e).

(** What is done with one message in the loop of [__mnl_cb_run] (callback.c L57-95): the
    result so far, errno, the data, and whether the loop goes on *)
Definition one_message {D : Type} (le : bool) (cb : option (attr_cb D)) (b : list byte) (fuel : nat)
    (seq portid offset p res errno : Z) (d : D) : out (Z * Z * D * bool) :=
  pid <- get_pid le b p ;;
  if negb (seq_ok pid portid) then Done (-1, ESRCH, d, false)
  else
    s <- get_seq le b p ;;
    if negb (seq_ok s seq) then Done (-1, EPROTO, d, false)
    else
      f <- get_flags le b p ;;
      if Z.testbit f 4 then Done (-1, EINTR, d, false)     (* NLM_F_DUMP_INTR *)
      else
        t <- get_msg_type le b p ;;
        if 16 <=? t then
          match cb with
          | Some cb => r <- attr_parse le cb b fuel p offset errno d ;;
                       let '(res, errno, d) := r in Done (res, errno, d, negb (res <=? CB_STOP))
          | None => Done (res, errno, d, true)
          end
        else if t =? 2 then r <- cb_error le b p ;; let (res, errno) := r in Done (res, errno, d, negb (res <=? CB_STOP))
        else if t =? 3 then Done (CB_STOP, errno, d, false)
        else if (t =? 1) || (t =? 4) then Done (CB_OK, errno, d, true)
        else Done (res, errno, d, true).

(** [__mnl_cb_run], callback.c L48-99, with [mnl_nlmsg_next] (nlmsg.c L178-182) *)
Fixpoint cb_run {D : Type} (le : bool) (cb : option (attr_cb D)) (b : list byte)
    (seq portid offset : Z) (fuel : nat) (p len res errno : Z) (d : D) : out (Z * Z * D) :=
  match fuel with
  | O => Endless
  | S k =>
      ok <- nlmsg_ok le b p len ;;
      if negb ok then Done (res, errno, d)
      else
        r <- one_message le cb b fuel seq portid offset p res errno d ;;
        let '(res, errno, d, on) := r in
        if negb on then Done (res, errno, d)
        else
          n <- get_len le b p ;;
          cb_run le cb b seq portid offset k (p + align32 n) (int (len - align32 n)) res errno d
  end.

(** *** [do_nl] *)

(** [mnl_socket_recvfrom], socket.c L263-291: the error number, or the bytes that were
    received, at most as many as fit (else MSG_TRUNC is set and ENOSPC is the result) *)
Inductive received := RError (e : Z) | RData (l : list byte).
Definition receive (buf : list byte) (r : received) : Z + list byte * Z :=
  match r with
  | RError e => inl e
  | RData l => if size buf <? size l then inl 28 else inr (l ++ skipn (length l) buf, size l)
  end.

(** The loop of [do_nl], l2tp.c L89-97; a failure to receive is a negative number that is
    returned as `bool`.  [buf] is the buffer with what it happened to contain. *)
Fixpoint nl_loop {D : Type} (le : bool) (cb : option (attr_cb D)) (seq portid offset : Z) (fuel : nat)
    (buf : list byte) (rs : list received) (errno : Z) (d : D) : out (bool * Z * D) :=
  match rs with
  | [] => Waiting
  | r :: rs =>
      match receive buf r with
      | inl e => Done (true, e, d)
      | inr (buf, len) =>
          r <- cb_run le cb buf seq portid offset fuel 0 len CB_OK errno d ;;
          let '(err, errno, d) := r in
          if CB_STOP <? err then nl_loop le cb seq portid offset fuel buf rs errno d
          else Done (negb (err =? CB_ERROR), errno, d)
      end
  end.

(** [do_nl], l2tp.c L77-98: the request [msg] gets its sequence number, and [sendto] gets
    the first nlmsg_len bytes.  [sent] is the error of [sendto], if it fails; a failure is
    returned like success (L84-85).  The socket was never bound by the process, so libmnl's
    idea of the port ID is 0 (socket.c [mnl_socket_open], [mnl_socket_get_portid]).  The
    result is what was sent, and what [do_nl] returns; and the last sequence number. *)
Definition do_nl {D : Type} (le : bool) (cb : option (attr_cb D)) (fuel : nat) (last : Z) (msg buf : list byte)
    (sent : option Z) (rs : list received) (errno : Z) (d : D) : out (list byte * Z * (bool * Z * D)) :=
  let seq := u32 (last + 1) in
  msg <- write_num le 4 msg 8 seq ;;
  n <- get_len le msg 0 ;;
  data <- read msg 0 n ;;
  match sent with
  | Some e => Done (data, seq, (true, e, d))
  | None => r <- nl_loop le cb seq 0 4 fuel buf rs errno d ;; Done (data, seq, r)
  end.

(** What the functions for the requests return: [genl_get_family_id] the family (its test
    `err < 0` is never true), [fastd_l2tp_session_get_ifname] the name if there is one, the
    others whether it worked; with the bytes sent, the sequence number and errno *)
Inductive answer := AFamily (id : Z) | AName (n : option (list byte)) | ABool (ok : bool).

Definition run_request (le : bool) (fuel : nat) (last family_id : Z) (bufsize : nat) (buf : list byte) (name : list byte)
    (sent : option Z) (rs : list received) (errno : Z) (r : request) : out (list byte * Z * Z * answer) :=
  msg <- build le (repeat 0%N bufsize) family_id r ;;
  match r with
  | Family =>
      x <- do_nl le (Some (getfamily_cb le)) fuel last msg buf sent rs errno (-1) ;;
      let '(data, seq, (ok, errno, id)) := x in Done (data, seq, errno, AFamily id)
  | SessionGet _ =>
      x <- do_nl le (Some (get_ifname_cb le)) fuel last msg buf sent rs errno (0%N :: tl name) ;;
      let '(data, seq, (ok, errno, name)) := x in
      Done (data, seq, errno, AName (if negb ok then None else if (hd 0%N name =? 0)%N then None else Some name))
  | _ =>
      x <- do_nl (D := unit) le None fuel last msg buf sent rs errno tt ;;
      let '(data, seq, (ok, errno, _)) := x in Done (data, seq, errno, ABool ok)
  end.
