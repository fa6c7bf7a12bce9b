(** The status socket.  Source: src/status.c, describe_peer in
    src/protocols/ec25519_fhmqvc/util.c, get_current_method in ec25519_fhmqvc.c there.

    What NodeModel leaves out (names, counters, times, texts of addresses) is given by a record.
    json-c objects are values: creating them does not fail, strings are copied, and adding a
    field that exists replaces its value.  json-c's conversion to text is an arbitrary function. *)
From Coq Require Import String.
From Verif Require Import Base BufferModel AddrModel FormatModel HexModel LogModel NodeModel.
Local Open Scope Z_scope.

(** struct json_object; NULL is null *)
Inductive json := JNull | JInt (z : Z) | JStr (s : bytes) | JArr (l : list json) | JObj (l : list (bytes * json)).

(** json_object_object_add *)
Definition beqb (a b : bytes) : bool := if list_eq_dec N.eq_dec a b then true else false.
Definition obj_add (o : list (bytes * json)) (k : bytes) (v : json) : list (bytes * json) :=
  if existsb (fun f => beqb (fst f) k) o then map (fun f => if beqb (fst f) k then (k, v) else f) o else o ++ [(k, v)].

(** [fastd_stat_type_t], fastd.h L182-189; packets and bytes of each *)
Inductive stat_type := STAT_RX | STAT_RX_REORDERED | STAT_TX | STAT_TX_DROPPED | STAT_TX_ERROR.
Definition stats := stat_type -> N * N.

(** What is not part of [node]; peers are given by their id *)
Record extra := mk_extra {
  x_started : Z;                          (* ctx.started *)
  x_iface : option (option bytes);        (* ctx.iface and its name *)
  x_stats : stats;                        (* ctx.stats *)
  x_tap : bool;                           (* conf.mode == MODE_TAP *)
  x_name : N -> option bytes;             (* peer->name *)
  x_since : N -> Z;                       (* peer->established *)
  x_pstats : N -> stats;                  (* peer->stats *)
  x_piface : N -> option (option bytes);  (* peer->iface and its name *)
  x_saddr : NodeModel.addr -> saddr;      (* the C structure of an address *)
  x_lib : lib;
  x_junk : N -> bytes                     (* former contents of the stack *)
}.

(** An array of [size] bytes on the stack *)
Definition array (size : nat) (junk : bytes) : bytes := firstn size (junk ++ repeat 0%N size).
(** The string in an array *)
Fixpoint c_string (mem : bytes) : res bytes :=
  match mem with
  | [] => UB
  | b :: r => if (b =? 0)%N then Ok [] else do s <- c_string r; Ok (b :: s)
  end.

(** conversion of uint64_t to int64_t *)
Definition int64 (n : N) : Z := let m := Z.of_N n mod 2 ^ 64 in if m <? 2 ^ 63 then m else m - 2 ^ 64.

(** [dump_stat], [dump_iface], [dump_stats], L60-86 *)
Definition dump_stat (s : stats) (t : stat_type) : json :=
  JObj (obj_add (obj_add [] (str "packets") (JInt (int64 (fst (s t))))) (str "bytes") (JInt (int64 (snd (s t))))).
Definition dump_iface (i : option (option bytes)) : json := match i with Some (Some name) => JStr name | _ => JNull end.
Definition dump_stats (s : stats) : json :=
  JObj (obj_add (obj_add (obj_add (obj_add (obj_add []
    (str "rx") (dump_stat s STAT_RX))
    (str "rx_reordered") (dump_stat s STAT_RX_REORDERED))
    (str "tx") (dump_stat s STAT_TX))
    (str "tx_dropped") (dump_stat s STAT_TX_DROPPED))
    (str "tx_error") (dump_stat s STAT_TX_ERROR)).

(** [protocol_get_current_method], ec25519_fhmqvc.c L205-214, with [use_old_session] L98-106; [None] is NULL *)
Definition current_method (now : Z) (p : peer) : res (option bytes) :=
  if negb (is_established p) then Ok None
  else
    match p_sess p with
    | None => UB
    | Some s => Ok (option_map ss_method (if m_initiator (ss_state s) && sess_valid now (p_old p) then p_old p else p_sess p))
    end.

(** The six bytes of a MAC address (the first one is sent first) *)
Definition mac_bytes (a : N) : bytes := map (fun i => N.modulo (N.shiftr a (8 * i)) 256) [5; 4; 3; 2; 1; 0]%N.

(** The loop over [ctx.eth_addrs], L123-141 *)
Fixpoint dump_macs (junk : bytes) (pid : N) (l : list eth_entry) (acc : list json) : res (list json) :=
  match l with
  | [] => Ok acc
  | e :: l =>
      if negb (match e_peer e with Some q => N.eqb q pid | None => false end) then dump_macs junk pid l acc
      else
        do m <- vsnprintf (array 18 junk) 0 18 (Text (mac_text (mac_bytes (e_addr e))));
        do s <- c_string (fst m);
        dump_macs junk pid l (acc ++ [JStr s])
  end.

(** [dump_peer], L90-148 *)
Definition dump_peer (x : extra) (n : node) (p : peer) : res json :=
  let id := p_id p in
  let junk := x_junk x id in
  do m <- snprint_peer_address (array 72 junk) 0 72
            (addr_of (x_lib x) (match p_addr p with Some a => x_saddr x a | None => AUnspec end) []) None false false None;
  do a <- c_string (fst m);
  let ret := obj_add [] (str "name") (match x_name x id with Some s => JStr s | None => JNull end) in
  let ret := obj_add ret (str "address") (JStr a) in
  let ret := match x_iface x with None => obj_add ret (str "interface") (dump_iface (x_piface x id)) | Some _ => ret end in
  do c <- (if is_established p then
             let c := obj_add [] (str "established") (JInt (n_now n - x_since x id)) in
             do m <- current_method (n_now n) p;
             let c := obj_add c (str "method") (match m with Some s => JStr s | None => JNull end) in
             let c := obj_add c (str "statistics") (dump_stats (x_pstats x id)) in
             if x_tap x then
               do l <- dump_macs junk id (n_eth n) [];
               Ok (JObj (obj_add c (str "mac_addresses") (JArr l)))
             else Ok (JObj c)
           else Ok JNull);
  Ok (JObj (obj_add ret (str "connection") c)).

(** The loop over [ctx.peers], L166-174; each peer has a key *)
Fixpoint dump_peers (x : extra) (n : node) (l : list peer) (acc : list (bytes * json)) : res (list (bytes * json)) :=
  match l with
  | [] => Ok acc
  | p :: l =>
      if negb (is_enabled p) then dump_peers x n l acc
      else
        do k <- describe_peer 65 (p_key p);
        do j <- dump_peer x n p;
        dump_peers x n l (obj_add acc k j)
  end.

(** [dump_status], L152-174 *)
Definition dump_status (x : extra) (n : node) : res json :=
  let j := obj_add [] (str "uptime") (JInt (n_now n - x_started x)) in
  let j := match x_iface x with Some _ => obj_add j (str "interface") (dump_iface (x_iface x)) | None => j end in
  let j := obj_add j (str "statistics") (dump_stats (x_stats x)) in
  do l <- dump_peers x n (n_peers n) [];
  Ok (JObj (obj_add j (str "peers") (JObj l))).

(** ** Writing to the client *)

(** Results of write: a number of bytes, or an error *)
Inductive wres := Wrote (k : nat) | WError.
Inductive effect := FWrite (s : bytes) | FClose | FPutJson | FFreeArg.
Inductive outcome := Finished | Waiting.

(** The loop of [dump_thread], L42-51, with the results of write up to now; write never returns more
    than it was asked for *)
Fixpoint write_loop (left : bytes) (ws : list wres) : list effect * outcome :=
  match left, ws with
  | [], _ => ([], Finished)
  | _, [] => ([], Waiting)
  | _, WError :: _ => ([], Finished)
  | _, Wrote k :: ws =>
      let k := Nat.min k (List.length left) in
      let (es, o) := write_loop (skipn k left) ws in (FWrite (firstn k left) :: es, o)
  end.

(** [dump_thread], L35-58 *)
Definition dump_thread (text : bytes) (ws : list wres) : list effect * outcome :=
  match write_loop text ws with
  | (es, Finished) => (es ++ [FClose; FPutJson; FFreeArg], Finished)
  | (es, Waiting) => (es, Waiting)
  end.

(** The end of [dump_status], L177-190, for an accepted connection; [created] is the result of pthread_create *)
Definition dump_start (text : bytes) (created : bool) (ws : list wres) : list effect * outcome :=
  if created then dump_thread text ws else ([FClose; FPutJson; FFreeArg], Finished).

(** ** Several instances with the same socket path *)

(** The steps of [fastd_status_init], L194-288, and [fastd_status_close], L291-300 with
    [unlink_status_socket] at exit.  Each is a system call. *)
Inductive phase :=
| PStart        (* before flock *)
| PLocked       (* lock held *)
| PUnlinked     (* old socket removed *)
| PBound        (* bound; atexit registered; listening from now on *)
| PRemoved      (* socket removed at exit *)
| PDead.

Record sys := mk_sys {
  y_phase : N -> phase;
  y_lock : option N;      (* the process with the lock *)
  y_path : option N       (* the process that has created the socket at the path *)
}.
Definition upd (f : N -> phase) (p : N) (v : phase) : N -> phase := fun q => if N.eqb q p then v else f q.
Definition unlock (l : option N) (p : N) : option N := match l with Some q => if N.eqb q p then None else l | None => None end.

(** [SLock] fails if another process has the lock, and the process exits with an error; [SBind] fails if the path
    exists.  [SCrash] is the end of a process for any other reason, without removing the socket: signals, errors before atexit.
    Locks end with the process. *)
Inductive sstep := SLock (p : N) | SUnlink (p : N) | SBind (p : N) | SRemove (p : N) | SExit (p : N) | SCrash (p : N).
Definition sys_step (y : sys) (s : sstep) : sys :=
  match s with
  | SLock p =>
      match y_phase y p, y_lock y with
      | PStart, None => mk_sys (upd (y_phase y) p PLocked) (Some p) (y_path y)
      | PStart, Some _ => mk_sys (upd (y_phase y) p PDead) (y_lock y) (y_path y)
      | _, _ => y
      end
  | SUnlink p => match y_phase y p with PLocked => mk_sys (upd (y_phase y) p PUnlinked) (y_lock y) None | _ => y end
  | SBind p =>
      match y_phase y p with
      | PUnlinked =>
          match y_path y with
          | None => mk_sys (upd (y_phase y) p PBound) (y_lock y) (Some p)
          | Some _ => mk_sys (upd (y_phase y) p PDead) (unlock (y_lock y) p) (y_path y)
          end
      | _ => y
      end
  | SRemove p => match y_phase y p with PBound => mk_sys (upd (y_phase y) p PRemoved) (y_lock y) None | _ => y end
  | SExit p => match y_phase y p with PRemoved => mk_sys (upd (y_phase y) p PDead) (unlock (y_lock y) p) (y_path y) | _ => y end
  | SCrash p => mk_sys (upd (y_phase y) p PDead) (unlock (y_lock y) p) (y_path y)
  end.
Definition sys_run (y : sys) (l : list sstep) : sys := fold_left sys_step l y.
