(** Log messages: log.c L203-275 and the arguments of log.c L101-201; the formatter itself
    is in FormatModel.v.  Functions of snprintf are assumed not to fail; strings that are NULL
    are printed as glibc does. *)
From Coq Require Import String Ascii.
From Verif Require Import Base BufferModel MethodModel AddrModel FormatModel.
Local Open Scope N_scope.

Definition str (s : string) : bytes := map N_of_ascii (list_ascii_of_string s).

(** [fastd_loglevel_t], log.h L24-34 *)
Definition LL_FATAL : N := 1.
Definition LL_ERROR : N := 2.
Definition LL_WARN : N := 3.
Definition LL_INFO : N := 4.
Definition LL_VERBOSE : N := 5.
Definition LL_DEBUG : N := 6.
Definition LL_DEBUG2 : N := 7.

(** The parts of the configuration and the context that are used *)
Record logconf := mk_logconf {
  lc_init : bool;     (* ctx.log_initialized *)
  lc_stderr : N;      (* conf.log_stderr_level *)
  lc_syslog : N;      (* conf.log_syslog_level *)
  lc_hide_ip : bool;  (* conf.hide_ip_addresses *)
  lc_hide_mac : bool  (* conf.hide_mac_addresses *)
}.

(** inet_ntop, if_indextoname, the time as printed by strftime, and pointers as printed by
    snprintf *)
Record lib := mk_lib {
  l_ntop4 : bytes -> option bytes;
  l_ntop6 : bytes -> option bytes;
  l_ifname : bytes -> option bytes;
  l_time : bytes;
  l_pointer : bytes
}.

(** Decimal numbers *)
Fixpoint digits (d : Decimal.uint) : bytes :=
  match d with
  | Decimal.Nil => []
  | Decimal.D0 d => 48 :: digits d
  | Decimal.D1 d => 49 :: digits d
  | Decimal.D2 d => 50 :: digits d
  | Decimal.D3 d => 51 :: digits d
  | Decimal.D4 d => 52 :: digits d
  | Decimal.D5 d => 53 :: digits d
  | Decimal.D6 d => 54 :: digits d
  | Decimal.D7 d => 55 :: digits d
  | Decimal.D8 d => 56 :: digits d
  | Decimal.D9 d => 57 :: digits d
  end.
Definition dec (n : N) : bytes := digits (N.to_uint n).
Definition zdec (z : Z) : bytes := if (z <? 0)%Z then 45 :: dec (Z.to_N (- z)) else dec (Z.to_N z).

(** Arguments as passed: int (and smaller types), unsigned, 64-bit unsigned (uint64_t,
    size_t), and pointers *)
Inductive val : Set :=
| VlInt (z : Z)
| VlUint (n : N)
| VlLong (n : N)
| VlStr (s : option bytes)
| VlMac (a : option bytes)
| VlPeer (p : option (option bytes * option bytes))   (* name and key *)
| VlData (d : bytes)
| VlAddr (a : option saddr) (port : bytes)            (* [port]: the bytes at its place if the family is AF_UNSPEC *)
| VlPtr.

(** An address as formatted by [fastd_snprint_peer_address] *)
Definition addr_of (l : lib) (a : saddr) (port0 : bytes) : addr_arg :=
  match a with
  | AUnspec => ArgUnspec (dec (be_val port0))
  | AInet ip port => ArgInet (l_ntop4 l ip) (dec (be_val port))
  | AInet6 ip port _ scope => ArgInet6 (l_ntop6 l ip) (is_linklocal ip) (l_ifname l scope) (dec (be_val port))
  | AOther _ => ArgOther
  end.

Fixpoint mac_text (d : bytes) : bytes :=
  match d with
  | [] => []
  | [b] => hex b
  | b :: d => hex b ++ 58 :: mac_text d
  end.

(** [snprint_peer_str], log.c L77-89 *)
Definition peer_text (p : option (option bytes * option bytes)) : bytes :=
  match p with
  | Some (Some name, _) => [60] ++ name ++ [62]
  | Some (None, Some key) => [123] ++ describe key ++ [125]
  | _ => str_null
  end.

(** Fetching the arguments of a conversion, log.c L122-197.  A wrong type is undefined
    behaviour, unless it is int instead of unsigned or the other way round and the value
    can be represented in both. *)
Inductive fetched : Set :=
| FWrong
| FUnknown
| FArgs (a : list arg) (rest : list val).
Definition text1 (s : bytes) (rest : list val) : fetched := FArgs [VText (Text s)] rest.
Definition fetch (l : lib) (c : logconf) (d : N) (vals : list val) : fetched :=
  if d =? 37 then FArgs [] vals
  else if d =? 105 (* i *) then
    match vals with
    | VlInt z :: r => text1 (zdec z) r
    | VlUint n :: r => if n <? 2 ^ 31 then text1 (dec n) r else FWrong
    | _ => FWrong
    end
  else if d =? 117 (* u *) then
    match vals with
    | VlUint n :: r => text1 (dec n) r
    | VlInt z :: r => if (z <? 0)%Z then FWrong else text1 (zdec z) r
    | _ => FWrong
    end
  else if (d =? 85) || (d =? 90) (* U Z *) then match vals with VlLong n :: r => text1 (dec n) r | _ => FWrong end
  else if d =? 115 (* s *) then
    match vals with VlStr s :: r => text1 (match s with Some s => s | None => str_null end) r | _ => FWrong end
  else if d =? 112 (* p *) then match vals with VlPtr :: r => text1 (l_pointer l) r | _ => FWrong end
  else if d =? 69 (* E *) then
    match vals with
    | VlMac (Some a) :: r => text1 (if lc_hide_mac c then str_hidden else mac_text a) r
    | VlMac None :: r => text1 str_null r
    | _ => FWrong
    end
  else if d =? 80 (* P *) then match vals with VlPeer p :: r => text1 (peer_text p) r | _ => FWrong end
  else if d =? 72 (* H *) then
    match vals with
    | VlData data :: VlLong n :: r => if n <=? N.of_nat (List.length data) then FArgs [VHex (firstn (N.to_nat n) data)] r else FWrong
    | _ => FWrong
    end
  else if (d =? 73) || (d =? 66) (* I B *) then
    match vals with
    | VlAddr a port :: r => FArgs [VAddr (option_map (fun a => addr_of l a port) a) None] r
    | _ => FWrong
    end
  else if d =? 76 (* L *) then
    match vals with
    | VlAddr a port :: VlStr iface :: r => FArgs [VAddrIf (option_map (fun a => addr_of l a port) a) iface None] r
    | _ => FWrong
    end
  else FUnknown.

(** All arguments of a format, up to an unknown conversion.  (The program does not look at arguments
    of conversions that are cut off.) *)
Fixpoint fetch_all (l : lib) (c : logconf) (fmt : bytes) (vals : list val) : option (list arg) :=
  match fmt with
  | [] => Some []
  | x :: fmt =>
      if negb (x =? 37) then fetch_all l c fmt vals
      else
        match fmt with
        | [] => Some []
        | d :: fmt =>
            match fetch l c d vals with
            | FWrong => None
            | FUnknown => Some []
            | FArgs a r => option_map (app a) (fetch_all l c fmt r)
            end
        end
  end.

(** [get_log_prefix], log.c L204-224, and [get_syslog_level], log.c L227-243 *)
Definition log_prefix (level : N) : bytes :=
  if level =? LL_FATAL then str "Fatal: "
  else if level =? LL_ERROR then str "Error: "
  else if level =? LL_WARN then str "Warning: "
  else if level =? LL_INFO then str "Info: "
  else if level =? LL_VERBOSE then str "Verbose: "
  else if level =? LL_DEBUG then str "DEBUG: "
  else if level =? LL_DEBUG2 then str "DEBUG2: "
  else [].
Definition syslog_level (level : N) : N :=
  if level =? LL_FATAL then 2
  else if level =? LL_ERROR then 3
  else if level =? LL_WARN then 4
  else if level =? LL_INFO then 5
  else if level =? LL_VERBOSE then 6
  else 7.

Inductive out : Set := OStderr (s : bytes) | OSyslog (priority : N) (s : bytes).

(** The message in log.c L195 *)
Definition unknown_format : bytes := str "fastd_vsnprintf: unknown format conversion specifier '%c'".

(** [fastd_logf], log.c L248-275.  [buffer]: its uninitialised buffer; [fuel]: the number of
    nested calls for which there is room on the stack. *)
Fixpoint logf (fuel : nat) (l : lib) (c : logconf) (buffer : bytes) (level : N) (fmt : bytes) (vals : list val) : res (list out) :=
  match fuel with
  | O => UB
  | S fuel =>
      let log_stderr := negb (lc_init c) || (level <=? lc_stderr c) in
      let log_syslog := lc_init c && (level <=? lc_syslog c) in
      if negb log_stderr && negb log_syslog then Ok []
      else
        match fetch_all l c fmt vals with
        | None => UB
        | Some args =>
            do x <- fastd_vsnprintf (lc_hide_ip c) buffer fmt args;
            do nested <- (match snd x with
                          | Some _ => Ok []
                          | None => logf fuel l c buffer LL_WARN unknown_format [VlInt 0]
                          end);
            do mem <- write_at (fst x) 1023 [0];
            match cstr mem with
            | None => UB
            | Some text =>
                Ok (nested ++
                    (if log_stderr then [OStderr (l_time l ++ log_prefix level ++ text ++ [10])] else []) ++
                    (if log_syslog then [OSyslog (syslog_level level) text] else []))
            end
        end
  end.
