(** Results of helper threads: async.c, the resolver thread of resolve.c and the way of
    the result of a verifier thread of verify.c.  The main thread, the helper threads and
    signal handlers are interleaved; each event is one system call or one piece of
    computation of one of them.  The notification socket is a queue of datagrams
    (socketpair(AF_UNIX, SOCK_DGRAM)): sendmsg appends one atomically or fails, recvmsg
    takes the first.  Structures are laid out as on a little-endian 64-bit system.

    Simplified: a variable length array of size zero (the buffer for ASYNC_TYPE_NOP,
    L94; formally undefined in C, allowed by GNU C) is an empty buffer; the size of the
    stack, which a large notification could exceed, is not modelled. *)
From Verif Require Import Base BufferModel AddrModel.
Local Open Scope N_scope.

(** Memory: reading outside of an object is undefined *)
Definition mread (off n : nat) (m : bytes) : res bytes :=
  if Nat.leb (off + n) (length m) then Ok (firstn n (skipn off m)) else UB.
Definition mwrite (off : nat) (d m : bytes) : res bytes :=
  if Nat.leb (off + length d) (length m) then Ok (firstn off m ++ d ++ skipn (off + length d) m) else UB.

(** union fastd_peer_address, fastd.h L133-137: AF_INET is 2, AF_INET6 is 10 *)
Definition ADDR_SIZE : nat := 28.
Definition pad (n : nat) (l : bytes) : bytes := l ++ repeat 0 (n - length l).
Definition addr_bytes (a : saddr) : bytes :=
  pad ADDR_SIZE
    match a with
    | AUnspec => []
    | AInet ip port => le_bytes 2 2 ++ port ++ ip
    | AInet6 ip port flow scope => le_bytes 2 10 ++ port ++ flow ++ ip ++ scope
    | AOther f => le_bytes 2 f
    end.
Definition addr_of (m : bytes) : saddr :=
  let f := le_val (firstn 2 m) in
  if f =? 0 then AUnspec
  else if f =? 2 then AInet (firstn 4 (skipn 4 m)) (firstn 2 (skipn 2 m))
  else if f =? 10 then AInet6 (firstn 16 (skipn 8 m)) (firstn 2 (skipn 2 m)) (firstn 4 (skipn 4 m)) (firstn 4 (skipn 24 m))
  else AOther f.

(** [fastd_peer_address_simplify], peer.c L519-529, in memory *)
Definition simplify_mem (m : bytes) : bytes :=
  match addr_of m with
  | AInet6 ip port flow scope => if is_v4mapped ip then addr_bytes (AInet (skipn 12 ip) port) else m
  | _ => m
  end.

(** async.h L21-26 and async.c L19-22: type (and a hole of 4 bytes) and length *)
Definition NOP : N := 0.
Definition RESOLVE_RETURN : N := 1.
Definition VERIFY_RETURN : N := 2.
Definition HDR_SIZE : nat := 16.

(** [fastd_async_enqueue], async.c L122-140: the datagram to send *)
Definition datagram (type : N) (data : bytes) : bytes :=
  le_bytes 4 type ++ repeat 0 4 ++ le_bytes 8 (N.of_nat (length data)) ++ data.

(** async.h L30-36: peer_id, remote, n_addr, addr[] *)
Definition RR_SIZE : nat := 24.
(** async.h L39-50: ok (and a hole of 7 bytes), peer_id, sock, local_addr, remote_addr, protocol_data[] *)
Definition VR_SIZE : nat := 80.

(** What getaddrinfo returns: for each entry ai_addrlen bytes at ai_addr, the first two
    of them being the family *)
Definition gai : Set := list bytes.
Definition family (raw : bytes) : N := le_val (firstn 2 raw).

(** The second loop of [resolve_peer], resolve.c L70-83 *)
Fixpoint fill (l : gai) (n : nat) (m : bytes) : res (nat * bytes) :=
  match l with
  | [] => Ok (n, m)
  | raw :: l =>
      if (Nat.ltb ADDR_SIZE (length raw) || (negb (family raw =? 2) && negb (family raw =? 10)))%bool then fill l n m
      else
        let off := (RR_SIZE + n * ADDR_SIZE)%nat in
        do m <- mwrite off (repeat 0 ADDR_SIZE) m;
        do m <- mwrite off raw m;
        do a <- mread off ADDR_SIZE m;
        do m <- mwrite off (simplify_mem a) m;
        fill l (S n) m
  end.

(** [resolve_peer], resolve.c L30-97, after getaddrinfo (an error is an empty list):
    [junk] is the former contents of the stack where the buffer is *)
Definition resolve_result (pid remote : N) (l : gai) (junk : nat -> byte) : res bytes :=
  let n_addr := length l in
  let retbuf := map junk (seq 0 (RR_SIZE + n_addr * ADDR_SIZE)) in
  do m <- mwrite 0 (le_bytes 8 pid) retbuf;
  do m <- mwrite 8 (le_bytes 8 remote) m;
  do (n, m) <- (if Nat.eqb n_addr 0 then Ok (0%nat, m) else fill l 0 m);
  do m <- mwrite 16 (le_bytes 8 (N.of_nat n)) m;
  do d <- mread 0 (RR_SIZE + n * ADDR_SIZE) m;
  Ok (datagram RESOLVE_RETURN d).

(** [fastd_verify_peer], verify.c L102-110 (the member ret of the zeroed argument), and
    [do_verify_thread], L58-71 *)
Definition verify_arg (pid sock : N) (local remote : saddr) (data : bytes) : res bytes :=
  let m := repeat 0 (VR_SIZE + length data) in
  do m <- mwrite 8 (le_bytes 8 pid) m;
  do m <- mwrite 16 (le_bytes 8 sock) m;
  do m <- mwrite 24 (addr_bytes local) m;
  do m <- mwrite 52 (addr_bytes remote) m;
  mwrite 80 data m.
Definition verify_result (arg : bytes) (ok : bool) : res bytes :=
  do m <- mwrite 0 [if ok then 1 else 0] arg;
  Ok (datagram VERIFY_RETURN m).

(** What the main thread does with a notification: nothing, [handle_resolve_return]
    (L47-57) with a peer id, the index of a remote and addresses, or
    [handle_verify_return] (L62-75) *)
Inductive call : Set :=
| CNop
| CResolve (pid remote : N) (addrs : list saddr)
| CVerify (ok : bool) (pid sock : N) (local remote : saddr) (data : bytes).

(** The n addresses at addr[] *)
Fixpoint read_addrs (n : nat) (off : nat) (m : bytes) : res (list saddr) :=
  match n with
  | O => Ok []
  | S n =>
      do a <- mread off ADDR_SIZE m;
      do r <- read_addrs n (off + ADDR_SIZE) m;
      Ok (addr_of a :: r)
  end.

(** The number of addresses is only known to be a 64-bit number; more than the buffer has
    room for cannot be read *)
Definition decode_resolve (m : bytes) : res call :=
  do pid <- mread 0 8 m;
  do remote <- mread 8 8 m;
  do n <- mread 16 8 m;
  if N.of_nat (length m) <? le_val n then UB
  else
    do addrs <- read_addrs (N.to_nat (le_val n)) RR_SIZE m;
    Ok (CResolve (le_val pid) (le_val remote) addrs).

Definition decode_verify (m : bytes) : res call :=
  do ok <- mread 0 1 m;
  do pid <- mread 8 8 m;
  do sock <- mread 16 8 m;
  do local <- mread 24 ADDR_SIZE m;
  do remote <- mread 52 ADDR_SIZE m;
  do data <- mread 80 (length m - 80) m;
  Ok (CVerify (negb (le_val ok =? 0)) (le_val pid) (le_val sock) (addr_of local) (addr_of remote) data).

(** The jobs given to helper threads: a remote to resolve ([fastd_resolve_peer],
    resolve.c L100-129; host name and constraints only matter for getaddrinfo), a peer
    to verify.  The argument of a verifier thread is the memory prepared for it. *)
Inductive job : Set :=
| JResolve (pid remote : N)
| JVerify (pid sock : N) (local remote : saddr) (data : bytes).
Inductive thread : Set :=
| TResolve (pid remote : N)
| TVerify (arg : bytes).
Definition prepare (j : job) : res thread :=
  match j with
  | JResolve pid remote => Ok (TResolve pid remote)
  | JVerify pid sock local remote data => do arg <- verify_arg pid sock local remote data; Ok (TVerify arg)
  end.

(** What a thread finds out: the addresses returned by getaddrinfo, whether the verify
    command was successful *)
Inductive answer : Type :=
| Addresses (l : gai) (junk : nat -> byte)
| Verdict (ok : bool).
Definition thread_result (t : thread) (a : answer) : option (res bytes) :=
  match t, a with
  | TResolve pid remote, Addresses l junk => Some (resolve_result pid remote l junk)
  | TVerify arg, Verdict ok => Some (verify_result arg ok)
  | _, _ => None
  end.

(** The main thread is elsewhere, or in [fastd_async_handle] after having looked at the
    header: type and length *)
Inductive mphase : Set := MIdle | MPeeked (len : N).

Record astate := mk_astate {
  a_queue : list bytes;               (* the notification socket *)
  a_main : mphase;
  a_threads : list (option thread);   (* all threads ever started, None if it ended *)
  a_calls : list call                 (* notifications handled, in order *)
}.
Definition ainit : astate := mk_astate [] MIdle [] [].

Inductive aevent : Type :=
| EStart (j : job)                         (* the main thread starts a thread *)
| EDone (t : nat) (a : answer) (ok : bool) (* thread t sends its result, sendmsg succeeds or not, and ends *)
| ESignal (ok : bool)                      (* a signal handler sends a notification, fastd.c L79-82 *)
| EPeek                                    (* [fastd_async_handle], L82-92 (after poll found the socket readable) *)
| ERecv.                                   (* [fastd_async_handle], L94-119 *)

Definition push (ok : bool) (d : bytes) (q : list bytes) : list bytes := if ok then q ++ [d] else q.
Fixpoint replace {A} (n : nat) (x : A) (l : list A) : list A :=
  match l, n with
  | [], _ => []
  | _ :: l, O => x :: l
  | y :: l, S n => y :: replace n x l
  end.

(** recvmsg copies the datagram to the header and to the buffer of the size [len]; what
    does not fit is lost.  Bytes of the buffer that were not received are not defined. *)
Definition receive (len : N) (d : bytes) : res call :=
  do hdr <- mread 0 HDR_SIZE d;
  let buf := firstn (N.to_nat (N.min len (N.of_nat (length d)))) (skipn HDR_SIZE d) in
  let type := le_val (firstn 4 hdr) in
  if type =? NOP then Ok CNop
  else if type =? RESOLVE_RETURN then decode_resolve buf
  else if type =? VERIFY_RETURN then decode_verify buf
  else Bug.

(** One step; None if the event is not possible *)
Definition astep (e : aevent) (s : astate) : option (res astate) :=
  match e with
  | EStart j =>
      match a_main s with
      | MIdle => Some (do t <- prepare j; Ok (mk_astate (a_queue s) MIdle (a_threads s ++ [Some t]) (a_calls s)))
      | MPeeked _ => None
      end
  | EDone t a ok =>
      match nth t (a_threads s) None with
      | None => None
      | Some th =>
          match thread_result th a with
          | None => None
          | Some r => Some (do d <- r; Ok (mk_astate (push ok d (a_queue s)) (a_main s) (replace t None (a_threads s)) (a_calls s)))
          end
      end
  | ESignal ok => Some (Ok (mk_astate (push ok (datagram NOP []) (a_queue s)) (a_main s) (a_threads s) (a_calls s)))
  | EPeek =>
      match a_main s, a_queue s with
      | MIdle, d :: _ =>
          Some (do hdr <- mread 0 HDR_SIZE d;
                Ok (mk_astate (a_queue s) (MPeeked (le_val (firstn 8 (skipn 8 hdr)))) (a_threads s) (a_calls s)))
      | _, _ => None
      end
  | ERecv =>
      match a_main s, a_queue s with
      | MPeeked len, d :: q => Some (do c <- receive len d; Ok (mk_astate q MIdle (a_threads s) (a_calls s ++ [c])))
      | MPeeked _, [] => Some Fatal
      | MIdle, _ => None
      end
  end.

Fixpoint arun (es : list aevent) (s : astate) : option (res astate) :=
  match es with
  | [] => Some (Ok s)
  | e :: es =>
      match astep e s with
      | None => None
      | Some (Ok s) => arun es s
      | Some Bug => Some Bug
      | Some Fatal => Some Fatal
      | Some UB => Some UB
      end
  end.
