(** The polling loop (/repo/src/polling.c), in its three variants: epoll
    (L87-157), poll and select (L159-297).

    What a handler does with a ready descriptor (fastd_async_handle,
    fastd_status_handle, fastd_iface_handle, fastd_receive) is left open here:
    it may close any sockets and interfaces that exist, and open new ones, as
    an arbitrary function of the whole state.  The objects (fastd_socket_t,
    fastd_iface_t, which embed a fastd_poll_fd_t) live at addresses; closing
    one frees its memory, and a later object may be put at the same address.
    Every object also has a number of its own, which the program does not see:
    it tells an object from a later one at the same address.

    Simplified: the time handling (task_timeout, fastd_update_time) and the
    signal mask are left out; the revents bits are the two the program looks
    at (POLLIN; POLLERR | POLLHUP | POLLNVAL).  Closing a descriptor always
    frees the object, as for the sockets of peers (peer.c L172-182,
    socket.c L276-289) and for interfaces (iface.c L577-585). *)

From Coq Require Import ZArith List Bool.
From Verif Require Import BufferModel.
Import ListNotations.
Local Open Scope Z_scope.

(** src/polling.h L11-18: fastd_poll_type_t; [POther] is any other value *)
Inductive ptype := PAsync | PStatus | PIface | PSocket | POther.

(** src/polling.h L21-24: fastd_poll_fd_t in its object *)
Record obj := mkObj { o_id : nat; o_type : ptype; o_fd : Z }.

(** The objects that exist, by address *)
Definition heap := list (nat * obj).

Fixpoint lookup (h : heap) (p : nat) : option obj :=
  match h with
  | [] => None
  | (q, o) :: h' => if Nat.eqb q p then Some o else lookup h' p
  end.

Definition release (h : heap) (p : nat) : heap :=
  filter (fun x => negb (Nat.eqb (fst x) p)) h.

(** What happened, in order: an object was opened and registered, closed, the
    kernel reported descriptors (readable, error), a report was handed to an
    object, the program was done with what was reported. *)
Inductive ev :=
| EOpen (id : nat) (fd : Z)
| EClose (id : nat)
| EPoll (rep : list (Z * bool * bool))
| EDisp (id : nat) (input error : bool)
| EEnd.

Record pst := mkP {
  p_heap : heap;
  p_next : nat;                            (* the number of the next object *)
  p_fds : list (option nat);               (* ctx.fds: addresses by descriptor *)
  p_pollfds : list (Z * bool * bool);      (* ctx.pollfds: fd, revents *)
  p_epoll : list (Z * nat);                (* the kernel's list for ctx.epoll_fd: fd, data.ptr *)
  p_trace : list ev;                       (* the latest first *)
}.

Definition start : pst := mkP [] 0 [] [] [] [].

Definition set_heap v s := mkP v (p_next s) (p_fds s) (p_pollfds s) (p_epoll s) (p_trace s).
Definition set_next v s := mkP (p_heap s) v (p_fds s) (p_pollfds s) (p_epoll s) (p_trace s).
Definition set_fds v s := mkP (p_heap s) (p_next s) v (p_pollfds s) (p_epoll s) (p_trace s).
Definition set_pollfds v s := mkP (p_heap s) (p_next s) (p_fds s) v (p_epoll s) (p_trace s).
Definition set_epoll v s := mkP (p_heap s) (p_next s) (p_fds s) (p_pollfds s) v (p_trace s).
Definition say e s := mkP (p_heap s) (p_next s) (p_fds s) (p_pollfds s) (p_epoll s) (e :: p_trace s).

(** Reading the fastd_poll_fd_t at an address *)
Definition deref (s : pst) (p : nat) : res obj :=
  match lookup (p_heap s) p with Some o => Ok o | None => UB end.

(** ** Registering and closing *)

(** Writing one element of a vector *)
Fixpoint put {A} (l : list A) (i : nat) (x : A) : list A :=
  match l, i with
  | [], _ => []
  | _ :: l', O => x :: l'
  | y :: l', S i' => y :: put l' i' x
  end.

(** src/polling.c L169-179 (poll, select): fastd_poll_fd_register *)
Definition poll_register (s : pst) (p : nat) : res pst :=
  do o <- deref s p;
  if o_fd o <? 0 then Bug
  else
    let i := Z.to_nat (o_fd o) in
    let fds := p_fds s ++ repeat None (S i - length (p_fds s)) in
    Ok (set_pollfds [] (set_fds (put fds i (Some p)) s)).

(** src/polling.c L181-190: fastd_poll_fd_close *)
Definition poll_close (s : pst) (p : nat) : res pst :=
  do o <- deref s p;
  if (o_fd o <? 0) || (Z.of_nat (length (p_fds s)) <=? o_fd o) then Bug
  else Ok (set_pollfds [] (set_fds (put (p_fds s) (Z.to_nat (o_fd o)) None) s)).

(** src/polling.c L120-131 (epoll): fastd_poll_fd_register.  Adding a
    descriptor that is already in the list fails (EEXIST). *)
Definition epoll_register (s : pst) (p : nat) : res pst :=
  do o <- deref s p;
  if o_fd o <? 0 then Bug
  else if existsb (fun x => fst x =? o_fd o) (p_epoll s) then Fatal
  else Ok (set_epoll (p_epoll s ++ [(o_fd o, p)]) s).

(** src/polling.c L133-138: fastd_poll_fd_close.  Removing a descriptor that
    is not in the list fails (ENOENT). *)
Definition epoll_close (s : pst) (p : nat) : res pst :=
  do o <- deref s p;
  if existsb (fun x => fst x =? o_fd o) (p_epoll s)
  then Ok (set_epoll (filter (fun x => negb (fst x =? o_fd o)) (p_epoll s)) s)
  else Fatal.

(** ** What handlers do *)

Inductive op :=
| OpOpen (p : nat) (ty : ptype) (fd : Z)   (* malloc returned p, the kernel fd *)
| OpClose (p : nat).

Section Variant.
  Variable register close : pst -> nat -> res pst.

  (** One step of a handler.  An address where an object lives is not
      returned by malloc, a descriptor in use not by the kernel, and an object
      that does not exist is not closed: such steps do nothing here.
      A failed open is not registered, so the descriptor is not negative. *)
  Definition exec_op (s : pst) (o : op) : res pst :=
    match o with
    | OpOpen p ty fd =>
      if (fd <? 0) || existsb (fun x => Nat.eqb (fst x) p || (o_fd (snd x) =? fd)) (p_heap s)
      then Ok s
      else
        register (say (EOpen (p_next s) fd)
                    (set_next (S (p_next s))
                       (set_heap ((p, mkObj (p_next s) ty fd) :: p_heap s) s))) p
    | OpClose p =>
      match lookup (p_heap s) p with
      | None => Ok s
      | Some o =>
        do s' <- close s p;
        Ok (say (EClose (o_id o)) (set_heap (release (p_heap s') p) s'))
      end
    end.

  Fixpoint exec_ops (s : pst) (l : list op) : res pst :=
    match l with
    | [] => Ok s
    | o :: l' => do s' <- exec_op s o; exec_ops s' l'
    end.

  (** The handlers: what they do may depend on everything. *)
  Variable handler : pst -> nat -> list op.

  (** src/polling.c L49-86: handle_fd; [p] is the address of the
      fastd_poll_fd_t.  fastd_socket_error (socket.c L291-299) only reads the
      error from the socket. *)
  Definition handle_fd (s : pst) (p : nat) (input error : bool) : res pst :=
    do o <- deref s p;
    let s := say (EDisp (o_id o) input error) s in
    match o_type o with
    | PAsync | PStatus | PIface =>
      do s' <- (if input then exec_ops s (handler s p) else Ok s);
      if error then Fatal else Ok s'
    | PSocket =>
      if input then exec_ops s (handler s p) else Ok s
    | POther => Bug
    end.
End Variant.

(** ** poll and select *)

(** What the kernel answers: a failure (EINTR or another errno), or for each
    descriptor whether it is readable and whether it has an error. *)
Inductive answer := AIntr | AFail | AReady (f : Z -> bool * bool).

Definition nonzero (r : Z * bool * bool) : bool :=
  let '(_, i, e) := r in i || e.

(** src/polling.c L198-212: the pollfds vector is rebuilt when it is empty.
    [fd->fd] is read through the pointers in ctx.fds. *)
Fixpoint build (s : pst) (fds : list (option nat)) : res (list (Z * bool * bool)) :=
  match fds with
  | [] => Ok []
  | None :: fds' => build s fds'
  | Some p :: fds' =>
    do o <- deref s p;
    do l <- build s fds';
    Ok ((o_fd o, false, false) :: l)
  end.

(** src/polling.c L220-268: the revents after select (L220-265, with
    USE_SELECT) or poll (L268), when either returned a positive number *)
Definition revents (sel : bool) (f : Z -> bool * bool) (l : list (Z * bool * bool))
  : list (Z * bool * bool) :=
  map (fun r => let '(fd, _, _) := r in
                if sel && (fd <? 0) then (fd, false, false)
                else (fd, fst (f fd), snd (f fd))) l.

Section Poll.
  Variable handler : pst -> nat -> list op.

  (** src/polling.c L281-293: the loop over the vector.  Each round reads the
      length of the vector again.  [fuel] bounds the recursion. *)
  Fixpoint poll_loop (fuel : nat) (i ret : nat) (s : pst) : res pst :=
    match fuel with
    | O => UB
    | S fuel =>
      if Nat.ltb i (length (p_pollfds s)) && Nat.ltb 0 ret then
        match nth_error (p_pollfds s) i with
        | None => UB
        | Some (fd, input, error) =>
          let ret := if nonzero (fd, input, error) then Nat.pred ret else ret in
          if fd <? 0 then UB
          else match nth_error (p_fds s) (Z.to_nat fd) with
               | Some (Some p) =>
                 do s' <- handle_fd poll_register poll_close handler s p input error;
                 poll_loop fuel (S i) ret s'
               | _ => UB          (* past the vector, or a NULL pointer *)
               end
        end
      else Ok s
    end.

  (** src/polling.c L193-294: fastd_poll_handle *)
  Definition poll_handle (sel : bool) (a : answer) (s : pst) : res pst :=
    do s <- (match p_pollfds s with
             | [] => do l <- build s (p_fds s); Ok (set_pollfds l s)
             | _ => Ok s
             end);
    match a with
    | AIntr => Ok s
    | AFail => Fatal
    | AReady f =>
      let l := revents sel f (p_pollfds s) in
      let ret := length (filter nonzero l) in
      (* a select that reports nothing leaves the old revents *)
      let s := say (EPoll l) (if sel && Nat.eqb ret 0 then s else set_pollfds l s) in
      do s <- (if Nat.eqb ret 0 then Ok s else poll_loop (S (length l)) 0 ret s);
      Ok (say EEnd s)
    end.
End Poll.

(** ** epoll *)

(** An element of the events array: the data.ptr of the registration, whether
    the descriptor is readable, and whether it has an error. *)
Record eev := mkE { e_ptr : nat; e_in : bool; e_err : bool }.

Inductive eanswer := EAIntr | EAFail | EAReady (l : list eev).

Section Epoll.
  Variable handler : pst -> nat -> list op.

  (** src/polling.c L154-156: the loop over the events *)
  Fixpoint epoll_loop (l : list eev) (s : pst) : res pst :=
    match l with
    | [] => Ok s
    | e :: l' =>
      do s' <- handle_fd epoll_register epoll_close handler s (e_ptr e) (e_in e) (e_err e);
      epoll_loop l' s'
    end.

  (** The descriptor a registration in the kernel's list is for *)
  Definition epoll_fd_of (s : pst) (p : nat) : Z :=
    match find (fun x => Nat.eqb (snd x) p) (p_epoll s) with
    | Some (fd, _) => fd
    | None => -1
    end.

  (** src/polling.c L141-157: fastd_poll_handle *)
  Definition epoll_handle (a : eanswer) (s : pst) : res pst :=
    match a with
    | EAIntr => Ok s
    | EAFail => Fatal
    | EAReady l =>
      do s <- epoll_loop l
                (say (EPoll (map (fun e => (epoll_fd_of s (e_ptr e), e_in e, e_err e)) l)) s);
      Ok (say EEnd s)
    end.
End Epoll.

(** What epoll_pwait can return: at most 16 registrations of the list, each
    at most once *)
Definition epoll_can (s : pst) (l : list eev) : Prop :=
  (length l <= 16)%nat /\ NoDup (map e_ptr l) /\
  forall e, In e l -> In (e_ptr e) (map snd (p_epoll s)).

(** ** Executions *)

(** Between two rounds the program also runs tasks and handles signals, which
    open and close objects as well (run_task in fastd.c). *)
Inductive poll_step (handler : pst -> nat -> list op) (s : pst) : res pst -> Prop :=
| ps_round : forall sel a, poll_step handler s (poll_handle handler sel a s)
| ps_other : forall l, poll_step handler s (exec_ops poll_register poll_close s l).

Inductive poll_run (handler : pst -> nat -> list op) : res pst -> Prop :=
| pr_start : poll_run handler (Ok start)
| pr_step : forall s r, poll_run handler (Ok s) -> poll_step handler s r -> poll_run handler r.

Inductive epoll_step (handler : pst -> nat -> list op) (s : pst) : res pst -> Prop :=
| es_round : forall l, epoll_can s l -> epoll_step handler s (epoll_handle handler (EAReady l) s)
| es_fail : forall a, a = EAIntr \/ a = EAFail -> epoll_step handler s (epoll_handle handler a s)
| es_other : forall l, epoll_step handler s (exec_ops epoll_register epoll_close s l).

Inductive epoll_run (handler : pst -> nat -> list op) : res pst -> Prop :=
| er_start : epoll_run handler (Ok start)
| er_step : forall s r, epoll_run handler (Ok s) -> epoll_step handler s r -> epoll_run handler r.
