(** Programs that watch over fastd: the notification of systemd (fastd.c L363-397, with WITH_SYSTEMD) and the
    service of Android (android.c, and its callers in socket.c L145-150 and iface.c L142-152).

    Results of system calls are inputs.  C strings are lists of bytes without the final zero; a local array is a list
    of cells as in NameModel.v.  64-bit little-endian system: struct cmsghdr has 16 bytes, its data follow at once. *)
From Verif Require Import Base BufferModel MethodModel NameModel HexModel ShellModel.
From Coq Require Import String.
Local Open Scope N_scope.

(** ** systemd *)
Inductive nact := NSocket | NConnect (sa : bytes) | NSend (msg : bytes) | NClose.

(** s[i]; beyond the final zero it is undefined *)
Definition char_at (s : bytes) (i : nat) : res N :=
  match nth_error (s ++ [0]) i with Some c => Ok c | None => UB end.

(** strncpy(dst + off, s, n): stops after [n] bytes, fills up with zeros *)
Definition strncpy (a : cells) (off : nat) (s : bytes) (n : nat) : res cells :=
  put a off (firstn n s ++ repeat 0 (n - List.length s)).
(** strnlen *)
Definition strnlen (s : bytes) (n : nat) : nat := Nat.min (List.length s) n.
(** The first [n] bytes of an object *)
Fixpoint read_cells (a : cells) (n : nat) {struct n} : res bytes :=
  match n, a with
  | O, _ => Ok []
  | S _, [] | S _, None :: _ => UB
  | S n, Some b :: r => do l <- read_cells r n; Ok (b :: l)
  end.

Definition AF_UNIX : N := 1.
Definition SUN_PATH : nat := 108.

(** [notify_systemd], fastd.c L363-397: [var] is NOTIFY_SOCKET; whether socket and connect succeed *)
Definition notify_systemd (var : option bytes) (sock_ok conn_ok : bool) (pid : N) : res (list nact) :=
  match var with
  | None => Ok []
  | Some s =>
      do c0 <- char_at s 0;
      do bad <- (if negb (c0 =? 64) && negb (c0 =? 47) then Ok true else do c1 <- char_at s 1; Ok (c1 =? 0));
      if bad then Ok []
      else if negb sock_ok then Ok [NSocket]
      else
        let sa := repeat (Some 0) (2 + SUN_PATH) in
        do sa <- put sa 0 (le_bytes 2 AF_UNIX);
        do sa <- strncpy sa 2 s SUN_PATH;
        do p0 <- (match nth_error sa 2 with Some (Some c) => Ok c | _ => UB end);
        do sa <- (if p0 =? 64 then put sa 2 [0] else Ok sa);
        do arg <- read_cells sa (2 + strnlen s SUN_PATH);
        if conn_ok then Ok [NSocket; NConnect arg; NSend (str "READY=1" ++ [10] ++ str "MAINPID=" ++ dec pid); NClose]
        else Ok [NSocket; NConnect arg; NClose]
  end.

(** ** Android *)

(** What happens: a descriptor is sent to be protected, [over] being ctx.android_ctrl_sock_fd and [conn] telling
    if that was connected to the service; the process number is sent; a socket is used or closed; the interface *)
Inductive aact :=
| SendFd (over : N) (conn : bool) (fd : N)
| SendPid (over : N) (conn : bool) (text : bytes)
| Uses (fd : N)
| Closes (fd : N)
| Tun (fd : N).

(** ctx.android_ctrl_sock_fd (zero at the start) *)
Record dev := mk_dev { d_ctrl : N; d_conn : bool }.
Definition first_dev : dev := mk_dev 0 false.

(** The control buffer of [ancil_recv_fds_with_buffer] for one descriptor before recvmsg, L70-76: length, SOL_SOCKET,
    SCM_RIGHTS, -1 *)
Definition control_buffer : bytes := le_bytes 8 20 ++ le_bytes 4 1 ++ le_bytes 4 1 ++ le_bytes 4 (2 ^ 32 - 1).

Definition signed32 (v : N) : Z := if v <? 2 ^ 31 then Z.of_N v else Z.of_N v - 2 ^ 32.

(** [ancil_recv_fd], [ancil_recv_fds_with_buffer], L55-93: recvmsg fails, or puts [ctl] into the buffer (writing
    more than the given 20 bytes is no option of the kernel).  The length is a size_t, the result an int. *)
Definition ancil_recv_fd (recv : option bytes) : res (option Z) :=
  match recv with
  | None => Ok None
  | Some ctl =>
      if Nat.ltb 20 (List.length ctl) then UB
      else
        let b := ctl ++ skipn (List.length ctl) control_buffer in
        let fd := signed32 (le_val (firstn 4 (skipn 16 b))) in
        let n := ((le_val (firstn 8 b) + 2 ^ 64 - 16) mod 2 ^ 64) / 4 in
        Ok (if signed32 (n mod 2 ^ 32) =? 1 then Some fd else None)%Z
  end.

(** [fastd_android_receive_tunfd], L171-185, with [init_ctrl_sock] L149-168 *)
Definition receive_tunfd (sock : option N) (conn_ok : bool) (recv : option bytes) : res (dev * Z) :=
  match sock with
  | None => Fatal
  | Some c =>
      if negb conn_ok then Fatal
      else do h <- ancil_recv_fd recv; Ok (mk_dev c true, match h with Some fd => fd | None => -1 end)%Z
  end.

(** [fastd_android_send_pid], L188-194: [wrote] is what write returns.  In the comparison with
    strlen a negative result is a large number. *)
Definition send_pid (d : dev) (pid : N) (wrote : Z) : res (list aact) :=
  do b <- print_u (repeat None 20) (pid mod 2 ^ 32);
  do s <- cstr b;
  if Z.eqb (wrote mod 2 ^ 64) (Z.of_nat (List.length s)) then Ok [SendPid (d_ctrl d) (d_conn d) s] else Fatal.

(** [fastd_android_protect_socket], L197-214: the result of sendmsg, and of read with at most 20 bytes into an
    uninitialised array *)
Record answer := mk_answer { an_sent : bool; an_read : option bytes }.
Definition protect_socket (integration : bool) (d : dev) (fd : N) (a : answer) : res (bool * list aact) :=
  if negb integration then Ok (true, [])
  else if negb (an_sent a) then Fatal
  else
    match an_read a with
    | None => Fatal
    | Some l =>
        do b <- put (repeat None 20) 0 l;
        match nth_error b 0 with
        | Some (Some c) => Ok (c =? 88, [SendFd (d_ctrl d) (d_conn d) fd])
        | _ => UB
        end
    end.

Inductive aop :=
| OpBind (start : bool) (fd : N) (a : answer) (* [bind_socket] has bound [fd]; in [fastd_socket_bind_all] or later *)
| OpIface (sock : option N) (conn_ok : bool) (recv : option bytes) (wrote : Z). (* [open_iface] *)

(** The end of [bind_socket], socket.c L145-158: a socket that could not be protected is closed, which at the start
    is fatal (L194); [open_iface], iface.c L142-152, and the end of [fastd_iface_open]: a descriptor below zero is a bug
    in [fastd_poll_fd_register] *)
Definition astep (integration : bool) (pid : N) (d : dev) (o : aop) : res (dev * list aact) :=
  match o with
  | OpBind start fd a =>
      do r <- protect_socket integration d fd a;
      let '(ok, acts) := r in
      if ok then Ok (d, acts ++ [Uses fd])
      else if start then Fatal else Ok (d, acts ++ [Closes fd])
  | OpIface sock conn_ok recv wrote =>
      if negb integration then Ok (d, []) (* C74 *)
      else
        do r <- receive_tunfd sock conn_ok recv;
        let '(d, h) := r in
        do acts <- send_pid d pid wrote;
        if (h <? 0)%Z then Bug else Ok (d, acts ++ [Tun (Z.to_N h)])
  end.

Fixpoint arun (integration : bool) (pid : N) (d : dev) (l : list aop) : res (dev * list aact) :=
  match l with
  | [] => Ok (d, [])
  | o :: r =>
      do x <- astep integration pid d o;
      let '(d, e1) := x in
      do y <- arun integration pid d r;
      let '(d, e2) := y in
      Ok (d, e1 ++ e2)
  end.
