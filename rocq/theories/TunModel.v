(** TUN/TAP interfaces: iface.c for all platforms, without Android's integration (L143-152).  System calls are
    answered by an environment that may answer differently each time; the calls are logged.  The name of
    an interface (fastd_iface_format_name) is in FormatModel; strings are bytes without the final zero. *)
From Coq Require Import String Ascii.
From Verif Require Import Base BufferModel SizeModel.

Definition text (s : string) : bytes := map (fun c => N_of_ascii c) (list_ascii_of_string s).

Inductive platform : Type := Linux | Android | FreeBSD | OpenBSD | NetBSD | MacOS.
(** [get_iface_type], L57-69, of conf.mode *)
Definition is_tun (m : mode) : bool := match m with MTun => true | _ => false end.
(** L41-45 *)
Definition multiaf_tun (os : platform) : bool := match os with Linux | Android | MacOS => false | _ => true end.

Inductive call : Type :=
| Open (path : bytes) (r : option N)                 (* open(path, O_RDWR | O_NONBLOCK); a descriptor *)
| SetIff (fd : N) (name : bytes) (tap no_pi : bool) (r : option bytes)   (* TUNSETIFF; the name of the interface *)
| GetMtu (name : bytes) (r : option N)               (* SIOCGIFMTU *)
| SetMtu (name : bytes) (mtu : N) (ok : bool)        (* SIOCSIFMTU *)
| GetInfo (fd : N) (ok : bool)                       (* TUNGIFINFO, TAPGIFINFO *)
| SetInfo (fd : N) (mtu : N) (ok : bool)             (* TUNSIFINFO, TAPSIFINFO *)
| SetHead (fd : N) (ok : bool)                       (* TUNSIFHEAD: packets get a prefix *)
| NameToIndex (name : bytes) (exists_ : bool)        (* if_nametoindex *)
| NameOf (fd : N) (r : option bytes)                 (* fdevname_r, TAPGIFNAME *)
| Close (fd : N) (ok : bool)
| Destroy (name : bytes) (ok : bool)                 (* SIOCIFDESTROY *)
| Register (fd : N) | Unregister (fd : N)            (* polling *)
| Alloc (block : nat) | Free (block : nat).

Record environment := mk_environment {
  e_fd : nat -> option N; e_ok : nat -> bool; e_name : nat -> option bytes; e_mtu : nat -> option N }.
Record st := mk_st { t_tick : nat; t_log : list call }.
Definition M (A : Type) : Type := st -> res (A * st).
Definition ret {A} (a : A) : M A := fun s => Ok (a, s).
Definition mbind {A B} (m : M A) (f : A -> M B) : M B := fun s => do r <- m s; f (fst r) (snd r).
Definition exit_errno {A} : M A := fun _ => Fatal.
Notation "x <- m ;; k" := (mbind m (fun x => k)) (at level 100, m at next level, right associativity).
Notation "m ;;; k" := (mbind m (fun _ => k)) (at level 100, right associativity).
Definition log (c : call) : M unit := fun s => Ok (tt, mk_st (t_tick s) (t_log s ++ [c])).
Definition ask {A} (q : nat -> A) (c : A -> call) : M A :=
  fun s => let a := q (t_tick s) in Ok (a, mk_st (S (t_tick s)) (t_log s ++ [c a])).
(** malloc: a new block each time *)
Definition alloc : M nat := fun s => Ok (t_tick s, mk_st (S (t_tick s)) (t_log s ++ [Alloc (t_tick s)])).

(** struct fastd_iface, fastd.h L172-178; [i_name]: the block and its contents; [i_fd]: None is -1 *)
Record iface := mk_iface { i_block : nat; i_fd : option N; i_name : option (nat * bytes); i_mtu : N; i_cleanup : bool }.
Definition set_fd (fd : option N) (i : iface) : iface := mk_iface (i_block i) fd (i_name i) (i_mtu i) (i_cleanup i).
Definition set_name (n : option (nat * bytes)) (i : iface) : iface := mk_iface (i_block i) (i_fd i) n (i_mtu i) (i_cleanup i).
Definition set_cleanup (b : bool) (i : iface) : iface := mk_iface (i_block i) (i_fd i) (i_name i) (i_mtu i) b.

Section Env.
Context (E : environment) (os : platform) (m : mode).

Definition IFNAMSIZ : nat := 16.
(** strncpy(ifr_name, s, IFNAMSIZ - 1) and back: at most 15 bytes *)
Definition ifname15 (s : bytes) : bytes := firstn (IFNAMSIZ - 1) s.
Definition sys_open (path : bytes) : M (option N) := ask (e_fd E) (Open path).
Definition free_name (i : iface) : M unit := match i_name i with Some (b, _) => log (Free b) | None => ret tt end.
(** fastd_strndup(s, IFNAMSIZ - 1) *)
Definition dup_name (s : bytes) : M (option (nat * bytes)) := b <- alloc ;; ret (Some (b, ifname15 s)).

(** [fastd_iface_set_mtu], L77-93 *)
Definition set_mtu (name : bytes) (mtu : N) : M bool :=
  cur <- ask (e_mtu E) (GetMtu (ifname15 name)) ;;
  match cur with
  | None => ret false
  | Some c => if N.eqb c mtu then ret true else ask (e_ok E) (SetMtu (ifname15 name) mtu)
  end.

(** [open_iface_linux], L95-131, and [open_iface], L142-163 *)
Definition open_linux (i : iface) (ifname : option bytes) (mtu : N) : M (bool * iface) :=
  fd <- sys_open (match os with Android => text "/dev/tun" | _ => text "/dev/net/tun" end) ;;
  match fd with
  | None => exit_errno
  | Some fd =>
      let i := set_fd (Some fd) i in
      r <- ask (e_name E) (SetIff fd (match ifname with Some n => ifname15 n | None => [] end) (negb (is_tun m)) true) ;;
      match r with
      | None => ret (false, i)
      | Some n =>
          name <- dup_name n ;;
          let i := set_name name i in
          ok <- set_mtu (ifname15 n) mtu ;;
          ret (ok, i)
      end
  end.

Definition type_name : bytes := if is_tun m then text "tun" else text "tap".
Definition prefix3 (s : bytes) : bool := if list_eq_dec N.eq_dec (firstn 3 s) type_name then true else false.
(** [set_tun_mtu], [set_tap_mtu], L168-201 *)
Definition set_info (fd mtu : N) : M bool :=
  got <- ask (e_ok E) (GetInfo fd) ;;
  if got then ask (e_ok E) (SetInfo fd mtu) else exit_errno.

(** [open_iface] with [setup_tun] and [setup_tap] for FreeBSD, L204-286 *)
Definition open_freebsd (i : iface) (ifname : option bytes) (mtu : N) : M (bool * iface) :=
  if match ifname with Some n => (Nat.leb (length n) 3 || negb (prefix3 n))%bool | None => false end then ret (false, i)
  else
    cleanup <- (match ifname with Some n => x <- ask (e_ok E) (NameToIndex n) ;; ret (negb x) | None => ret true end) ;;
    fd <- sys_open (text "/dev/" ++ match ifname with Some n => ifname15 n | None => type_name end) ;;
    match fd with
    | None => ret (false, i)
    | Some fd =>
        let i := set_fd (Some fd) i in
        b <- alloc ;;
        n <- ask (e_name E) (NameOf fd) ;;
        match n with
        | None => exit_errno
        | Some n =>
            let i := set_cleanup cleanup (set_name (Some (b, ifname15 n)) i) in
            if is_tun m then
              ok <- ask (e_ok E) (SetHead fd) ;;
              if ok then ok <- set_info fd mtu ;; ret (ok, i) else ret (false, i)
            else
              n <- ask (e_name E) (NameOf fd) ;;
              match n with
              | None => exit_errno
              | Some n =>
                  free_name i ;;;
                  name <- dup_name n ;;
                  let i := set_name name i in
                  ok <- set_info fd mtu ;; ret (ok, i)
              end
        end
    end.

(** [open_iface] for OpenBSD, L304-344, and for NetBSD and macOS, L354-414 *)
Definition open_other (i : iface) (ifname : option bytes) (mtu : N) : M (bool * iface) :=
  match ifname with
  | None => ret (false, i)
  | Some n =>
      if negb (prefix3 n) then ret (false, i)
      else
        fd <- sys_open (text "/dev/" ++ ifname15 n) ;;
        match fd with
        | None => ret (false, i)
        | Some fd =>
            let i := set_fd (Some fd) i in
            name <- dup_name n ;;
            let i := set_name name i in
            match os with
            | OpenBSD => ok <- set_info fd mtu ;; ret (ok, i)
            | _ =>
                ok <- (if (is_tun m && match os with NetBSD => true | _ => false end)%bool then ask (e_ok E) (SetHead fd) else ret true) ;;
                if ok then ok <- ask (e_ok E) (SetMtu (ifname15 n) mtu) ;; ret (ok, i) else ret (false, i)
            end
        end
  end.
Definition open_iface (i : iface) (ifname : option bytes) (mtu : N) : M (bool * iface) :=
  match os with Linux | Android => open_linux i ifname mtu | FreeBSD => open_freebsd i ifname mtu | _ => open_other i ifname mtu end.

(** [cleanup_iface], L135, L290-299, L347, L417; a missing name would be a NULL pointer for strncpy *)
Definition cleanup_iface (i : iface) : M unit :=
  match os with
  | FreeBSD =>
      if i_cleanup i then
        match i_name i with
        | None => fun _ => UB
        | Some (_, n) => _ <- ask (e_ok E) (Destroy (ifname15 n)) ;; ret tt
        end
      else ret tt
  | _ => ret tt
  end.

(** [fastd_iface_open], L540-574, after fastd_iface_format_name has given a name *)
Definition iface_open (name : bytes) (mtu : N) : M (option iface) :=
  b <- alloc ;;
  r <- open_iface (mk_iface b None None mtu false) (match name with [] => None | _ => Some name end) mtu ;;
  let i := snd r in
  if fst r then
    match i_fd i with
    | None => fun _ => UB
    | Some fd => log (Register fd) ;;; ret (Some i)
    end
  else
    (match i_fd i with
     | None => ret tt
     | Some fd => ok <- ask (e_ok E) (Close fd) ;; if ok then cleanup_iface i else ret tt
     end) ;;;
    free_name i ;;;
    log (Free b) ;;;
    ret None.

(** [fastd_iface_close], L577-585 *)
Definition iface_close (i : iface) : M unit :=
  match i_fd i with
  | None => fun _ => Bug
  | Some fd =>
      log (Unregister fd) ;;;
      ok <- ask (e_ok E) (Close fd) ;;
      (if ok then cleanup_iface i else ret tt) ;;;
      free_name i ;;;
      log (Free (i_block i))
  end.

(** ** Packets *)
Definition prefixed : bool := (multiaf_tun os && is_tun m)%bool.
(** [fastd_iface_handle], L427-446: what is passed to fastd_send_data, with [iface_read] of SizeModel; [offered] is
    the packet waiting (with its prefix), None a failing read *)
Definition iface_handle (z : sizes) (mtu : nat) (garbage : bytes) (offered : option bytes) : res buf :=
  match offered with
  | None => Fatal
  | Some d => if prefixed then iface_read_multiaf m z mtu garbage d else iface_read m z mtu garbage d
  end.
(** [fastd_iface_write], L449-478: what is passed to write(), if anything; AF_INET is 2, AF_INET6 depends on the
    system; in network byte order *)
Definition AF_INET : N := 2.
Definition AF_INET6 : N := match os with FreeBSD => 28 | NetBSD | OpenBSD => 24 | MacOS => 30 | _ => 10 end%N.
Definition iface_write (b : buf) : res (option bytes) :=
  if Nat.eqb (b_len b) 0 then Ok None
  else if prefixed then
    do h <- read (b_mem b) (b_off b) 1;
    let version := N.shiftr (nth 0 h 0%N) 4 in
    match (if N.eqb version 4 then Some AF_INET else if N.eqb version 6 then Some AF_INET6 else None) with
    | None => Ok None
    | Some af =>
        do b <- b_push_from b [0; 0; 0; af]%N;
        do d <- read (b_mem b) (b_off b) (b_len b);
        Ok (Some d)
    end
  else
    do d <- read (b_mem b) (b_off b) (b_len b);
    Ok (Some d).
End Env.
