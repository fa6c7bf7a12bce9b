(** What the statistics and the destinations of packets should be, in terms of system calls and messages *)
From Verif Require Import Base BufferModel TrafficModel.

(** ** Counting *)
Definition nonempty (f : bytes) : bool := match f with [] => false | _ => true end.
(** A failure after which the same packet is sent again without a source address *)
Definition repeated (pktinfo : bool) (r : option errno) : bool := (pktinfo && match r with Some EINVAL | Some ENETUNREACH => true | _ => false end)%bool.

(** The packet (peer and payload) that an event contributes to a counter *)
Definition contributes (st : stat) (e : event) : list (N * bytes) :=
  match e with
  | Write p _ f reordered _ =>
      match st with
      | STAT_RX => [(p, f)]
      | STAT_RX_REORDERED => if reordered then [(p, f)] else []
      | _ => []
      end
  | Send (Some p) (Some f) _ pktinfo r =>
      if (nonempty f && negb (repeated pktinfo r))%bool then
        match st, r with
        | STAT_TX, None => [(p, f)]
        | STAT_TX_DROPPED, Some EAGAIN => [(p, f)]
        | STAT_TX_ERROR, Some EAGAIN => []
        | STAT_TX_ERROR, Some _ => [(p, f)]
        | _, _ => []
        end
      else []
  | _ => []
  end.
Definition contributions (st : stat) (l : list event) : list (N * bytes) := flat_map (contributes st) l.
Definition number (l : list (N * bytes)) : N := N.of_nat (length l).
Definition volume (l : list (N * bytes)) : N := fold_right (fun x n => N.of_nat (length (snd x)) + n)%N 0%N l.
Definition of_peer (p : N) (l : list (N * bytes)) : list (N * bytes) := filter (fun x => N.eqb (fst x) p) l.
(** The events after the last reset of a peer *)
Definition since_reset (p : N) (l : list event) : list event :=
  fold_left (fun acc e => match e with Reset q _ => if N.eqb q p then [] else acc ++ [e] | _ => acc ++ [e] end) l [].

(** The statistics are those of the packets, modulo 2^64 *)
Definition correct (c : stats) (pick : stat -> list (N * bytes)) : Prop :=
  forall st, packets c st = (number (pick st) mod U64)%N /\ octets c st = (volume (pick st) mod U64)%N.

(** Totals over the present peers and over past connections *)
Definition present (field : stats -> stat -> N) (st : stat) (l : list peer) : N := fold_right (fun q n => field (p_stats q) st + n)%N 0%N l.
Definition past (field : stats -> stat -> N) (st : stat) (l : list event) : N :=
  fold_right (fun e n => match e with Reset _ c => field c st + n | _ => n end)%N 0%N l.

(** ** Destinations *)
Inductive fate : Type := Transmitted | Dropped | Failed | NoSession | NotEncrypted.
Definition fate_of (e : event) : list (N * fate) :=
  match e with
  | Send (Some p) (Some _) _ pktinfo r =>
      if repeated pktinfo r then []
      else [(p, match r with None => Transmitted | Some EAGAIN => Dropped | Some _ => Failed end)]
  | Expired p => [(p, NoSession)]
  | EncryptFailed p _ => [(p, NotEncrypted)]
  | _ => []
  end.
Definition fates (l : list event) : list (N * fate) := flat_map fate_of l.

Definition connected (s : node) : list N := map p_id (filter (fun q => match p_state q with Established => true | _ => false end) (n_peers s)).
Definition but (o : option N) (l : list N) : list N := filter (fun p => match o with Some q => negb (N.eqb p q) | None => true end) l.
Definition unicast (a : bytes) : bool := match a with b :: _ => N.even b | [] => true end.
Definition same (a b : bytes) : bool := if list_eq_dec N.eq_dec a b then true else false.
Fixpoint assoc (a : bytes) (l : list (bytes * option N)) : option (option N) :=
  match l with
  | [] => None
  | (b, o) :: l => if same b a then Some o else assoc a l
  end.
(** Who uses an address, when a frame of [source] (None: this node) has just been seen *)
Definition owner (s : node) (source : option N) (f a : bytes) : option (option N) :=
  let src := firstn 6 (skipn 6 f) in
  if (unicast src && same src a)%bool then Some source else assoc a (n_eth s).
(** The peers a packet is meant for *)
Definition recipients (C : config) (s : node) (source dest : option N) (f : bytes) : list N :=
  let all := but source (connected s) in
  let one d := filter (fun p => N.eqb p d) all in
  match dest with
  | Some d => one d
  | None =>
      if negb (c_tap C) then all
      else if Nat.ltb (length f) 14 then []
      else if negb (unicast (firstn 6 f)) then all
      else match owner s source f (firstn 6 f) with
           | None => all
           | Some None => []
           | Some (Some d) => one d
           end
  end.
(** Everything that happens while a packet is sent concerns this packet: it is sent as encrypted with one of
    the peer's sessions; otherwise the peer's session has expired, or could not encrypt it *)
Definition known (s : node) (p : N) (q : peer) : Prop := In q (n_peers s) /\ p_id q = p.
(** The session is the current one, or the previous one if the current one was started by this side; it has not expired *)
Definition usable (E : environment) (q : peer) (x : session) : Prop :=
  (exists t, e_valid E t x = true) /\ (p_sess q = Some x \/ (p_old q = Some x /\ exists y, p_sess q = Some y /\ s_initiator y = true)).
Definition about (E : environment) (s : node) (f : bytes) (e : event) : Prop :=
  match e with
  | Send who payload w _ _ => exists p q x t, who = Some p /\ payload = Some f /\ known s p q /\ usable E q x /\ e_encrypt E t x f = Some w
  | EncryptFailed p g => g = f /\ exists q x t, known s p q /\ usable E q x /\ e_encrypt E t x f = None
  | Expired p => exists q x t, known s p q /\ p_sess q = Some x /\ e_valid E t x = false
  | Reset p c => exists q x t, known s p q /\ p_sess q = Some x /\ e_valid E t x = false
  | Write _ _ _ _ _ | Removed _ => False
  end.

(** What a data packet from peer p turns out to be *)
Inductive reading (E : environment) (q : peer) (w : bytes) : option (bytes * bool) -> Prop :=
| Reading_old : forall x t t' f o, p_old q = Some x -> e_valid E t x = true -> e_decrypt E t' x w = Some (f, o) ->
    reading E q w (Some (f, match o with Some b => b | None => false end))
| Reading_new : forall x t f o, p_sess q = Some x -> e_decrypt E t x w = Some (f, o) ->
    reading E q w (Some (f, match o with Some b => b | None => false end))
| Reading_none : forall x t, p_sess q = Some x -> e_decrypt E t x w = None -> reading E q w None.
(** Is it for the interface *)
Definition acceptable (C : config) (f : bytes) : bool := (nonempty f && (negb (c_tap C) || Nat.leb 14 (length f)))%bool.
Definition empty_to (p : N) (e : event) : Prop :=
  match e with
  | Send (Some q) (Some []) _ _ _ | EncryptFailed q [] => q = p
  | _ => False
  end.
(** Everything that happens when a data packet arrives: nothing before the first handshake; the session has expired; or
    the packet is read, with what follows from that: a session may be confirmed with an empty packet, then payload is given to
    the interface and passed on to other peers *)
Definition received (E : environment) (C : config) (s : node) (p : N) (q : peer) (w : bytes) (evs : list event) : Prop :=
  (p_proto q = false /\ evs = []) \/
  ((forall x, p_sess q = Some x -> exists t, e_valid E t x = false) /\ (evs = [Expired p] \/ evs = [Expired p; Reset p (p_stats q)])) \/
  ((exists x t, p_sess q = Some x /\ e_valid E t x = true) /\ exists v reply given forwarded, reading E q w v /\
    evs = reply ++ given ++ forwarded /\ Forall (empty_to p) reply /\
    match v with
    | None => reply = [] /\ given = [] /\ forwarded = []
    | Some (f, reordered) =>
        match p_iface q with
        | Some i =>
            if acceptable C f then
              (exists r, given = [Write p i f reordered r]) /\ Forall (about E s f) forwarded /\
              map fst (fates forwarded) = (if (c_tap C && c_forward C)%bool then recipients C s (Some p) None f else [])
            else given = [] /\ forwarded = []
        | None => given = [] /\ forwarded = []
        end
    end).

(** ** Executions *)
Definition exists_peer (s : node) (p : N) : Prop := In p (map p_id (n_peers s)).
Definition possible (s : node) (o : op) : Prop :=
  match o with
  | OIface (Some p) _ | OPacket p _ | OKeepalive p | OEstablish p _ _ _ | OReset p _ | ODelete p => exists_peer s p
  | _ => True
  end.
Inductive execution (E : environment) (C : config) : node -> list event -> Prop :=
| Execution_init : execution E C init []
| Execution_step : forall s past o s' new, execution E C s past -> possible s o -> step E C o s = Ok (s', new) -> execution E C s' (past ++ new).
