(** Model of the lifecycle of interfaces, connections and scripts: what fastd.c
    and peer.c open, close and announce from the start to the end of the process.

    Followed: [init], [run], [delete_peers], [cleanup] (fastd.c L463-541,
    L591-655), [reset_peer], [setup_peer], [delete_peer], [fastd_peer_reset],
    [fastd_peer_delete], [fastd_peer_add], [fastd_peer_set_established],
    [fastd_peer_reset_all] (peer.c L292-868), [configure_peers],
    [fastd_config_load_peer_dirs] (config.c L630-700) and the end of [establish]
    (handshake.c L136-140).

    Simplified: a peer is its id, key, the options compared on a reload (one
    number), where it was configured and its state; handshakes, timers, addresses
    and sessions are in NodeModel.v, so here *which* peer is reset or established
    at which time is an arbitrary input.  Whether a device or an offload session
    can be opened is an arbitrary input, too (where the code ends the process
    because a device file cannot be opened, the trace is cut short at this point). *)
From Coq Require Import List NArith Bool.
Import ListNotations.
Local Open Scope N_scope.

(** An interface: the one shared by all peers ([ctx.iface]), that of a peer
    ([peer->iface] with [iface->peer] set), or the interface of a peer's L2TP
    offload session ([peer->offload_state]) *)
Inductive owner := Main | Own (p : N) | Offload (p : N).

Inductive event :=
| EPreUp                (* pre-up script *)
| EOpen (o : owner)     (* [fastd_iface_open], [offload->init_session] succeeded *)
| EUp (o : owner)       (* up script *)
| EReady                (* PID file, systemd notification, status to the parent *)
| EEst (p : N)          (* establish script *)
| EDis (p : N)          (* disestablish script *)
| EDown (o : owner)     (* down script *)
| EClose (o : owner)    (* [fastd_iface_close], [offload->free_session] *)
| EPostDown.            (* post-down script *)

(** Commands: they read the answers of the system and append to the trace (newest
    event first).  [Halt] is exit(1), which runs no further scripts. *)
Inductive out (A : Type) := Go (a : A) (orc : list bool) (tr : list event) | Halt (tr : list event).
Arguments Go {A}.
Arguments Halt {A}.
Definition M (A : Type) := list bool -> list event -> out A.
Definition ret {A} (a : A) : M A := fun o t => Go a o t.
Definition bind {A B} (m : M A) (f : A -> M B) : M B :=
  fun o t => match m o t with Go a o' t' => f a o' t' | Halt t' => Halt t' end.
Definition emit (e : event) : M unit := fun o t => Go tt o (e :: t).
Definition ask : M bool := fun o t => match o with b :: r => Go b r t | [] => Go true [] t end.
Definition exit1 {A} : M A := fun _ t => Halt t.

Declare Scope life_scope.
Notation "x <- m ;; f" := (bind m (fun x => f)) (at level 61, m at next level, right associativity) : life_scope.
Notation "m ;; f" := (bind m (fun _ => f)) (at level 61, right associativity) : life_scope.
Local Open Scope life_scope.

Inductive cstate := CNew | CStatic | CDisabled | CDynamic. (* peer.h L29-36 *)
Inductive pstate := Inactive | Active | Established. (* STATE_PASSIVE, _RESOLVING and _HANDSHAKE are [Active] *)
Inductive carrier := NoIf | Shared | Private. (* [peer->iface]: NULL, [ctx.iface], its own *)

Record peer := mk_peer {
  p_id : N; p_key : N; p_cfg : N; p_dir : bool; p_conf : cstate; p_st : pstate; p_if : carrier; p_off : option N }.
Definition set_conf (c : cstate) (p : peer) := mk_peer (p_id p) (p_key p) (p_cfg p) (p_dir p) c (p_st p) (p_if p) (p_off p).
Definition set_st (s : pstate) (p : peer) := mk_peer (p_id p) (p_key p) (p_cfg p) (p_dir p) (p_conf p) s (p_if p) (p_off p).
Definition set_if (i : carrier) (p : peer) := mk_peer (p_id p) (p_key p) (p_cfg p) (p_dir p) (p_conf p) (p_st p) i (p_off p).
Definition set_off (k : option N) (p : peer) := mk_peer (p_id p) (p_key p) (p_cfg p) (p_dir p) (p_conf p) (p_st p) (p_if p) k.

Record config := mk_config {
  c_shared : bool;  (* mode tap, or Android integration: one interface opened at the start *)
  c_persist : bool; (* [conf.iface_persist] *)
  c_offload : bool; (* [fastd_use_offload_l2tp()] *)
  c_own : N         (* the node's own public key *)
}.

Definition is_dynamic (p : peer) : bool := match p_conf p with CDynamic => true | _ => false end.
Definition is_enabled (p : peer) : bool := match p_conf p with CStatic | CDynamic => true | _ => false end.
Definition is_disabled (p : peer) : bool := match p_conf p with CDisabled => true | _ => false end.
Definition is_established (p : peer) : bool := match p_st p with Established => true | _ => false end.
Definition is_inactive (p : peer) : bool := match p_st p with Inactive => true | _ => false end.
Definition has_private (p : peer) : bool := match p_if p with Private => true | _ => false end.
Definition has_none (p : peer) : bool := match p_if p with NoIf => true | _ => false end.
Definition when (b : bool) (m : M unit) : M unit := if b then m else ret tt.

(** [fastd_iface_open], iface.c L534-570, without the name and the device *)
Definition iface_open (o : owner) : M bool :=
  b <- ask ;; when b (emit (EOpen o)) ;; ret b.

(** [reset_peer], peer.c L292-337 *)
Definition reset_peer (c : config) (p : peer) : M peer :=
  when (is_established p) (emit (EDis (p_id p))) ;;
  p <- (match p_off p with
        | Some _ => emit (EDown (Offload (p_id p))) ;; emit (EClose (Offload (p_id p))) ;;
                    ret (set_off None (set_st Inactive p))
        | None => ret (set_st Inactive p)
        end) ;;
  if negb (c_persist c) || is_disabled p || is_dynamic p then
    when (has_private p) (emit (EDown (Own (p_id p))) ;; emit (EClose (Own (p_id p)))) ;;
    ret (set_if NoIf p)
  else ret p.

(** [setup_peer], peer.c L371-443 *)
Definition setup_peer (c : config) (p : peer) : M peer :=
  if negb (is_enabled p) then ret p
  else
    p <- (if c_shared c then ret (set_if Shared p)
          else if c_persist c && has_none p && negb (is_dynamic p) then
            b <- iface_open (Own (p_id p)) ;;
            if b then emit (EUp (Own (p_id p))) ;; ret (set_if Private p)
            else if negb (p_dir p) then exit1
            else ret p
          else ret p) ;;
    ret (set_st Active p).

(** [fastd_peer_reset], peer.c L652-659 *)
Definition peer_reset (c : config) (p : peer) : M peer :=
  p <- (if is_inactive p then ret p else reset_peer c p) ;; setup_peer c p.

(** [delete_peer] and [fastd_peer_delete], peer.c L471-486, L662-665 *)
Definition delete_peer (p : peer) : M unit :=
  when (has_private p) (emit (EDown (Own (p_id p))) ;; emit (EClose (Own (p_id p)))).
Definition peer_delete (c : config) (p : peer) : M unit :=
  p <- reset_peer c p ;; delete_peer p.

(** [fastd_peer_set_established], peer.c L830-883.  [off] is the offload of the
    session's method, if any. *)
Definition set_established (p : peer) (off : option N) : M (peer * bool) :=
  p <- (match p_off p with
        | Some k =>
            keep <- (if match off with Some k' => k =? k' | None => false end then ask else ret false) ;;
            if keep then ret p
            else emit (EDown (Offload (p_id p))) ;; emit (EClose (Offload (p_id p))) ;; ret (set_off None p)
        | None => ret p
        end) ;;
  r <- (match off, p_off p with
        | Some k, None =>
            when (has_private p) (emit (EDown (Own (p_id p))) ;; emit (EClose (Own (p_id p)))) ;;
            b <- ask ;;
            if b then emit (EOpen (Offload (p_id p))) ;; emit (EUp (Offload (p_id p))) ;;
                      ret (set_off (Some k) (set_if NoIf p), true)
            else ret (set_if NoIf p, false)
        | _, _ => ret (p, true)
        end) ;;
  if negb (snd r) then ret r
  else
    let p := fst r in
    r <- (if has_none p && match p_off p with None => true | _ => false end then
            b <- iface_open (Own (p_id p)) ;;
            if b then emit (EUp (Own (p_id p))) ;; ret (set_if Private p, true) else ret (p, false)
          else ret (p, true)) ;;
    if negb (snd r) then ret r
    else
      let p := fst r in
      if is_established p then ret (p, true)
      else emit (EEst (p_id p)) ;; ret (set_st Established p, true).

(** The end of [establish], handshake.c L136-140.  The handshake is one of an
    enabled peer: [find_key] (L412) passes over the others, and a peer found by
    its address has been set up.  Methods have an offload only if offloading is
    configured (null_l2tp.c). *)
Definition establish (c : config) (off : option N) (p : peer) : M peer :=
  if is_enabled p then
    r <- set_established p (if c_offload c then off else None) ;;
    if snd r then ret (fst r) else peer_reset c (fst r)
  else ret p.

(** The peers and the next id, [ctx.peers] and [ctx.next_peer_id] *)
Record world := mk_world { w_peers : list peer; w_next : N }.

(** Applies [f] to the peer with the given id *)
Fixpoint on_peer (id : N) (f : peer -> M peer) (l : list peer) : M (list peer) :=
  match l with
  | [] => ret []
  | p :: r => if p_id p =? id then p' <- f p ;; ret (p' :: r) else r' <- on_peer id f r ;; ret (p :: r')
  end.
(** Deletes the peer with the given id if [g] holds *)
Fixpoint drop_peer (c : config) (id : N) (g : peer -> bool) (l : list peer) : M (list peer) :=
  match l with
  | [] => ret []
  | p :: r => if p_id p =? id then (if g p then peer_delete c p ;; ret r else ret l)
              else r' <- drop_peer c id g r ;; ret (p :: r')
  end.
Definition find_key (k : N) (l : list peer) : option peer := find (fun p => p_key p =? k) l.

(** A peer definition: key and compared options *)
Definition def := (N * N)%type.
Definition new_peer (id : N) (d : def) (dir : bool) (st : cstate) : peer :=
  mk_peer id (fst d) (snd d) dir st Inactive NoIf None.
Definition insert_peer (d : def) (dir : bool) (st : cstate) (w : world) : world :=
  mk_world (w_peers w ++ [new_peer (w_next w) d dir st]) (w_next w + 1).

(** [fastd_peer_add], peer.c L728-790; the second component is its result *)
Definition peer_add (c : config) (d : def) (dir : bool) (st : cstate) (w : world) : M (world * bool) :=
  match find_key (fst d) (w_peers w) with
  | None => ret (insert_peer d dir st w, true)
  | Some q =>
      match p_conf q with
      | CNew | CDisabled =>
          l <- on_peer (p_id q) (fun p => ret (set_conf CDisabled p)) (w_peers w) ;;
          ret (mk_world l (w_next w), false)
      | CStatic =>
          if p_cfg q =? snd d then
            l <- on_peer (p_id q) (fun p => ret (set_conf CNew p)) (w_peers w) ;;
            ret (mk_world l (w_next w), true)
          else
            l <- drop_peer c (p_id q) (fun _ => true) (w_peers w) ;;
            ret (insert_peer d dir st (mk_world l (w_next w)), true)
      | CDynamic =>
          l <- drop_peer c (p_id q) (fun _ => true) (w_peers w) ;;
          ret (insert_peer d dir st (mk_world l (w_next w)), true)
      end
  end.

(** [configure_peers], config.c L630-670; the loop runs backwards *)
Definition configure_peer (c : config) (dirs_only : bool) (p : peer) : M (option peer) :=
  match p_conf p with
  | CStatic => peer_delete c p ;; ret None
  | CDynamic => ret (Some p)
  | _ =>
      let p := if p_key p =? c_own c then set_conf CDisabled p else p in
      if is_disabled p then p <- peer_reset c p ;; ret (Some p)
      else
        let p := set_conf CStatic p in
        if negb (is_established p) && (p_dir p || negb dirs_only) then p <- peer_reset c p ;; ret (Some p)
        else ret (Some p)
  end.
Fixpoint configure_peers (c : config) (dirs_only : bool) (l : list peer) : M (list peer) :=
  match l with
  | [] => ret []
  | p :: r =>
      r' <- configure_peers c dirs_only r ;;
      o <- configure_peer c dirs_only p ;;
      ret (match o with Some p' => p' :: r' | None => r' end)
  end.

(** [fastd_config_load_peer_dirs], config.c L683-700.  [defs] are the peer
    definitions in the peer directories in the order they are read. *)
Definition pre_reload (p : peer) : peer :=
  if is_dynamic p then p
  else if negb (p_dir p) then set_conf CNew p
  else match p_conf p with CDisabled => set_conf CStatic p | _ => p end.
Fixpoint add_all (c : config) (defs : list def) (w : world) : M world :=
  match defs with
  | [] => ret w
  | d :: r => x <- peer_add c d true CNew w ;; add_all c r (fst x)
  end.
Definition load_peer_dirs (c : config) (dirs_only : bool) (defs : list def) (w : world) : M world :=
  w <- add_all c defs (mk_world (map pre_reload (w_peers w)) (w_next w)) ;;
  l <- configure_peers c dirs_only (w_peers w) ;;
  ret (mk_world l (w_next w)).

(** [fastd_peer_reset_all], peer.c L1028-1040 *)
Fixpoint reset_all (c : config) (l : list peer) : M (list peer) :=
  match l with
  | [] => ret []
  | p :: r =>
      if is_dynamic p then peer_delete c p ;; reset_all c r
      else p' <- peer_reset c p ;; r' <- reset_all c r ;; ret (p' :: r')
  end.

(** What happens while the process runs *)
Inductive op :=
| OpReset (id : N)                       (* a peer is reset: timeout, lost session, address taken, ... *)
| OpDrop (id : N)                        (* a dynamic peer times out or fails its verification *)
| OpEstablish (id : N) (off : option N)  (* a handshake with a peer succeeds *)
| OpDynamic (key : N)                    (* an unknown peer asks for a connection, handshake.c L516-568 *)
| OpReload (defs : list def)             (* SIGHUP *)
| OpResetAll.                            (* SIGUSR2 *)

Definition do_op (c : config) (w : world) (o : op) : M world :=
  match o with
  | OpReset id => l <- on_peer id (peer_reset c) (w_peers w) ;; ret (mk_world l (w_next w))
  | OpDrop id => l <- drop_peer c id is_dynamic (w_peers w) ;; ret (mk_world l (w_next w))
  | OpEstablish id off => l <- on_peer id (establish c off) (w_peers w) ;; ret (mk_world l (w_next w))
  | OpDynamic key =>
      match find_key key (w_peers w) with
      | Some _ => ret w
      | None =>
          let w' := insert_peer (key, 0) false CDynamic w in
          l <- on_peer (w_next w) (peer_reset c) (w_peers w') ;; ret (mk_world l (w_next w'))
      end
  | OpReload defs => load_peer_dirs c false defs w
  | OpResetAll => l <- reset_all c (w_peers w) ;; ret (mk_world l (w_next w))
  end.
Fixpoint do_ops (c : config) (ops : list op) (w : world) : M world :=
  match ops with [] => ret w | o :: r => w <- do_op c w o ;; do_ops c r w end.

(** The peers of the configuration file; a second one with the same key is an
    error (config.y L440-445) *)
Fixpoint add_static (c : config) (defs : list def) (w : world) : M world :=
  match defs with
  | [] => ret w
  | d :: r => x <- peer_add c d false CNew w ;; if snd x then add_static c r (fst x) else exit1
  end.

(** [init], fastd.c L463-541, with [config_check_base] (config.c L546-562) *)
Definition init (c : config) (static dirs : list def) : M world :=
  (if c_offload c && (c_shared c || c_persist c) then exit1 else ret tt) ;;
  w <- add_static c static (mk_world [] 1) ;;
  emit EPreUp ;;
  (if c_shared c then b <- iface_open Main ;; if b then ret tt else exit1 else ret tt) ;;
  emit EReady ;;
  when (c_shared c) (emit (EUp Main)) ;;
  l <- configure_peers c false (w_peers w) ;;
  load_peer_dirs c true dirs (mk_world l (w_next w)).

(** [delete_peers] and [cleanup], fastd.c L601-655; the last peer goes first *)
Fixpoint delete_peers (c : config) (l : list peer) : M unit :=
  match l with
  | [] => ret tt
  | p :: r => delete_peers c r ;; peer_delete c p
  end.
Definition cleanup (c : config) (w : world) : M unit :=
  delete_peers c (w_peers w) ;;
  when (c_shared c) (emit (EDown Main) ;; emit (EClose Main)) ;;
  emit EPostDown.

(** The process up to some moment, and until SIGTERM, SIGINT or SIGQUIT arrives,
    [fastd_main] (fastd.c L668-674) *)
Definition running (c : config) (static dirs : list def) (ops : list op) : M world :=
  w <- init c static dirs ;; do_ops c ops w.
Definition main (c : config) (static dirs : list def) (ops : list op) : M unit :=
  w <- running c static dirs ops ;; cleanup c w.

Definition trace {A} (o : out A) : list event := match o with Go _ _ t => t | Halt t => t end.
