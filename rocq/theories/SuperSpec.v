(** What is claimed about the notification of systemd and about the service of Android. *)
From Verif Require Import Base BufferModel NameModel HexSpec ShellSpec SuperModel.
From Coq Require Import String.
Local Open Scope N_scope.

(** The name of a local socket (unix(7)): a path, or an abstract name *)
Inductive sockname := Path (p : bytes) | Abstract (n : bytes).

Fixpoint until_zero (l : bytes) : bytes :=
  match l with [] => [] | b :: r => if b =? 0 then [] else b :: until_zero r end.

(** What the kernel makes of an address: the family in two bytes, then the path up to its end or the first zero, or
    after a zero an abstract name, which may contain zeros *)
Definition denotes (sa : bytes) : option sockname :=
  match sa with
  | f0 :: f1 :: c :: r =>
      if (f0 =? 1) && (f1 =? 0) then Some (if c =? 0 then Abstract r else Path (until_zero (c :: r))) else None
  | _ => None
  end.

(** What the variable means (sd_notify(3)) *)
Definition meant (s : bytes) : option sockname :=
  match s with
  | 64 :: x :: r => Some (Abstract (x :: r))
  | 47 :: _ :: _ => Some (Path s)
  | _ => None
  end.

(** A C string *)
Definition c_string (s : bytes) : Prop := wf_bytes s /\ zero_free s.

(** A control message with a descriptor *)
Definition carries (ctl : bytes) (fd : N) : Prop :=
  fd < 2 ^ 31 /\ ctl = le_bytes 8 20 ++ le_bytes 4 1 ++ le_bytes 4 1 ++ le_bytes 4 fd.

(** recvmsg has delivered one *)
Definition holds (recv : option bytes) (fd : N) : Prop := exists ctl, recv = Some ctl /\ carries ctl fd.

(** The service has answered that the socket is protected *)
Definition granted (a : answer) : Prop := an_sent a = true /\ exists r, an_read a = Some (88 :: r).

(** read returns at most as much as asked for *)
Definition proper_answer (a : answer) : Prop :=
  match an_read a with Some l => (List.length l <= 20)%nat | None => True end.
Definition proper_op (o : aop) : Prop :=
  match o with
  | OpBind _ _ a => proper_answer a
  | OpIface _ _ recv w =>
      (match recv with None => True | Some ctl => ctl = [] \/ exists fd, carries ctl fd end) /\ (-1 <= w < 2 ^ 63)%Z
  end.

(** The message of sd_notify(3) *)
Definition ready (msg : bytes) (pid : N) : Prop :=
  exists t, decimal t pid /\ msg = str "READY=1" ++ [10] ++ str "MAINPID=" ++ t.

(** What is said to systemd at the name, if one is meant *)
Definition notified (n : option sockname) (sock_ok conn_ok : bool) (pid : N) (tr : list nact) : Prop :=
  match n with
  | None => tr = []
  | Some n =>
      if sock_ok then
        exists sa msg, denotes sa = Some n /\ ready msg pid /\
          tr = [NSocket; NConnect sa] ++ (if conn_ok then [NSend msg] else []) ++ [NClose]
      else tr = [NSocket]
  end.

(** The start of the program and its running: sockets with an address in the configuration are bound first, then the
    interface is opened, later further sockets are opened *)
Definition in_order (binds : list aop) (iface : aop) (later : list aop) : Prop :=
  Forall (fun o => exists fd a, o = OpBind true fd a) binds /\
  (exists s c r w, iface = OpIface s c r w) /\
  Forall (fun o => exists fd a, o = OpBind false fd a) later.
