(** The string formatter for log messages (log.c) and interface names (iface.c,
    config.c).  The destination is the list of its bytes; writing outside of it is
    undefined behaviour. *)
From Verif Require Import Base BufferModel.
Local Open Scope N_scope.

Fixpoint write_at (mem : bytes) (pos : nat) (data : bytes) : res bytes :=
  match data with
  | [] => Ok mem
  | b :: r =>
      if Nat.ltb pos (length mem) then write_at (firstn pos mem ++ b :: skipn (S pos) mem) (S pos) r
      else UB
  end.

(** What vsnprintf does with a conversion: it has a text, or fails with a negative
    result, possibly after having written something *)
Inductive rendering : Set := Text (s : bytes) | Failed (junk : bytes).

(** vsnprintf (C11 7.21.6.12) into [room] bytes at [pos]; the result is negative or the
    length of the whole text *)
Definition vsnprintf (mem : bytes) (pos room : nat) (r : rendering) : res (bytes * option nat) :=
  match r with
  | Text s => do mem <- (if Nat.eqb room 0 then Ok mem else write_at mem pos (firstn (room - 1) s ++ [0])); Ok (mem, Some (length s))
  | Failed junk => do mem <- write_at mem pos (firstn room junk); Ok (mem, None)
  end.

(** [snprintf_safe], log.c L22-32 *)
Definition snprintf_safe (mem : bytes) (pos room : nat) (r : rendering) : res (bytes * nat) :=
  do x <- vsnprintf mem pos room r;
  Ok (fst x, match snd x with None => O | Some ret => Nat.min ret room end).

Definition str_any : bytes := [97; 110; 121].
Definition str_hidden : bytes := [91; 104; 105; 100; 100; 101; 110; 93].
Definition str_null : bytes := [40; 110; 117; 108; 108; 41].

(** An address argument: the texts given by inet_ntop and if_indextoname, and the
    decimal port; [fail] is set if vsnprintf fails *)
Inductive addr_arg : Set :=
| ArgUnspec (port : bytes)
| ArgInet (ntop : option bytes) (port : bytes)
| ArgInet6 (ntop : option bytes) (linklocal : bool) (ifname : option bytes) (port : bytes)
| ArgOther.

Definition render (fail : option bytes) (s : bytes) : rendering := match fail with Some junk => Failed junk | None => Text s end.

(** [fastd_snprint_peer_address], log.c L35-74.  Unlike the others, "any" is printed with
    snprintf itself, L43; its result -1 is converted to [size_t] when added to the pointer, and thus
    moves it back by one. *)
Definition snprint_peer_address (mem : bytes) (pos room : nat) (a : addr_arg) (iface : option bytes) (bind_address hide : bool)
  (fail : option bytes) : res (bytes * Z) :=
  let safe s := do x <- snprintf_safe mem pos room (render fail s); Ok (fst x, Z.of_nat (snd x)) in
  match a with
  | ArgUnspec port =>
      if bind_address then safe (str_any ++ [58] ++ port)
      else do x <- vsnprintf mem pos room (render fail str_any); Ok (fst x, match snd x with Some n => Z.of_nat n | None => (-1)%Z end)
  | ArgInet ntop port =>
      if negb bind_address && hide then safe (str_hidden ++ [58] ++ port)
      else match ntop with
           | Some t => safe (t ++ [58] ++ port)
           | None => Ok (mem, 0%Z)
           end
  | ArgInet6 ntop linklocal ifname port =>
      if negb bind_address && hide then safe (str_hidden ++ [58] ++ port)
      else match ntop with
           | Some t =>
               let iface := match iface with Some i => Some i | None => if linklocal then ifname else None end in
               match iface with
               | Some i => safe ([91] ++ t ++ [37] ++ i ++ [93; 58] ++ port)
               | None => safe ([91] ++ t ++ [93; 58] ++ port)
               end
           | None => Ok (mem, 0%Z)
           end
  | ArgOther => Bug
  end.

Definition hex_digit (n : N) : N := if n <? 10 then 48 + n else 87 + n.
Definition hex (b : N) : bytes := [hex_digit (b / 16); hex_digit (b mod 16)].

(** [snprint_hexdump], log.c L92-98 *)
Fixpoint hexdump (mem : bytes) (pos size n : nat) (d : bytes) : res (bytes * nat) :=
  match d with
  | [] => Ok (mem, n)
  | b :: r =>
      if Nat.ltb n size then
        do x <- snprintf_safe mem (pos + n) (size - n) (Text (hex b));
        hexdump (fst x) pos size (n + snd x) r
      else Ok (mem, n)
  end.

(** The variable arguments: values printed by a single call of [snprintf_safe] (numbers, strings,
    pointers, MAC addresses and peers, which are given by their text), byte
    strings, addresses with or without interface *)
Inductive arg : Set :=
| VText (r : rendering)
| VHex (d : bytes)
| VAddr (a : option addr_arg) (fail : option bytes)
| VAddrIf (a : option addr_arg) (iface : option bytes) (fail : option bytes).

(** one of i u U Z s p E P *)
Definition simple_conv (c : N) : bool := existsb (N.eqb c) [105; 117; 85; 90; 115; 112; 69; 80].

(** moving the pointer; not before the start of the buffer *)
Definition advance (pos : nat) (d : Z) : res nat := if (Z.of_nat pos + d <? 0)%Z then UB else Ok (Z.to_nat (Z.of_nat pos + d)).

(** [fastd_vsnprintf], log.c L101-201: from position [pos] on.  An argument of the wrong
    type is undefined behaviour. *)
Fixpoint format_loop (hide : bool) (fmt : bytes) (args : list arg) (mem : bytes) (pos : nat) : res (bytes * option nat) :=
  match fmt with
  | [] =>
      (* L196-199 *)
      do mem <- (if Nat.ltb pos (length mem) then write_at mem pos [0] else Ok mem);
      Ok (mem, Some pos)
  | c :: fmt =>
      if Nat.leb (length mem) pos then Ok (mem, Some pos)
      else if negb (c =? 37) then
        do mem <- write_at mem pos [c];
        format_loop hide fmt args mem (S pos)
      else
        let room := (length mem - pos)%nat in
        match fmt with
        | [] => do mem <- write_at mem 0 [0]; Ok (mem, None)
        | d :: fmt =>
            if d =? 37 then
              do x <- snprintf_safe mem pos room (Text [37]);
              format_loop hide fmt args (fst x) (pos + snd x)
            else if simple_conv d then
              match args with
              | VText r :: args =>
                  do x <- snprintf_safe mem pos room r;
                  format_loop hide fmt args (fst x) (pos + snd x)
              | _ => UB
              end
            else if d =? 72 then
              match args with
              | VHex data :: args =>
                  do x <- hexdump mem pos room 0 data;
                  format_loop hide fmt args (fst x) (pos + snd x)
              | _ => UB
              end
            else if (d =? 73) || (d =? 66) || (d =? 76) then
              match args with
              | VAddr a fail :: args =>
                  if d =? 76 then UB
                  else
                    do x <- match a with
                            | Some a => snprint_peer_address mem pos room a None (negb (d =? 73)) hide fail
                            | None => do x <- snprintf_safe mem pos room (render fail str_null); Ok (fst x, Z.of_nat (snd x))
                            end;
                    do pos <- advance pos (snd x);
                    format_loop hide fmt args (fst x) pos
              | VAddrIf a iface fail :: args =>
                  if negb (d =? 76) then UB
                  else
                    do x <- match a with
                            | Some a => snprint_peer_address mem pos room a iface true hide fail
                            | None => do x <- snprintf_safe mem pos room (render fail str_null); Ok (fst x, Z.of_nat (snd x))
                            end;
                    do pos <- advance pos (snd x);
                    format_loop hide fmt args (fst x) pos
              | _ => UB
              end
            else do mem <- write_at mem 0 [0]; Ok (mem, None)
        end
  end.

(** The end of the text after a break out of the loop (L111) is the same as at the end of the format:
    the position is not inside the buffer then, so nothing is written. *)
Definition fastd_vsnprintf (hide : bool) (mem fmt : bytes) (args : list arg) : res (bytes * option nat) :=
  do mem <- write_at mem 0 [0];
  format_loop hide fmt args mem 0.

(** The message in [fastd_logf], log.c L252-260 *)
Definition logf_buffer (hide : bool) (mem fmt : bytes) (args : list arg) : res bytes :=
  do x <- fastd_vsnprintf hide mem fmt args;
  write_at (fst x) 1023 [0].

(** The C string at the start of some memory *)
Fixpoint cstr (mem : bytes) : option bytes :=
  match mem with
  | [] => None
  | b :: r => if b =? 0 then Some [] else option_map (cons b) (cstr r)
  end.

(** ** Interface names *)

Fixpoint split_percent (s : bytes) : option (bytes * bytes) :=
  match s with
  | [] => None
  | c :: r => if c =? 37 then Some ([], r) else option_map (fun x => (c :: fst x, snd x)) (split_percent r)
  end.

(** [fastd_config_ifname], config.c L85-103: the patterns accepted.  After a terminating
    percent sign there is the NUL byte. *)
Definition ifname_valid (s : bytes) : bool :=
  negb (existsb (N.eqb 47) s) &&
  match split_percent s with
  | None => true
  | Some (_, []) => false
  | Some (_, c :: r) => negb (existsb (N.eqb 37) (c :: r)) && ((c =? 110) || (c =? 107))
  end.

Definition IFNAMSIZ : nat := 16.

(** The fields of a peer and of the configuration used in [fastd_iface_format_name] *)
Record ifpeer := mk_ifpeer { i_ifname : option bytes; i_name : option bytes; i_key : option bytes }.

(** [fastd_protocol_ec25519_fhmqvc_describe_peer], util.c L78-88, into 17 bytes *)
Definition describe (key : bytes) : bytes := firstn 16 (flat_map hex (firstn 32 key)).

(** [fastd_iface_format_name], iface.c L480-536 *)
Definition format_name (mem : bytes) (conf_ifname : option bytes) (single : bool) (peer : option ifpeer) : res (bytes * bool) :=
  let pattern :=
    match peer with
    | None => conf_ifname
    | Some p =>
        match i_ifname p with
        | Some s => Some s
        | None =>
            if negb single && negb (match conf_ifname with Some s => existsb (N.eqb 37) s | None => false end) then None
            else conf_ifname
        end
    end in
  match pattern with
  | None => do mem <- write_at mem 0 [0]; Ok (mem, true)
  | Some s =>
      match split_percent s with
      | None =>
          (* strncpy pads with zeros *)
          do mem <- write_at mem 0 (firstn (IFNAMSIZ - 1) (s ++ repeat 0 (IFNAMSIZ - 1)));
          do mem <- write_at mem (IFNAMSIZ - 1) [0];
          Ok (mem, true)
      | Some (prefix, rest) =>
          match peer with
          | None => Ok (mem, false)
          | Some p =>
              let print t := do x <- vsnprintf mem 0 IFNAMSIZ (Text (prefix ++ t ++ tl rest)); Ok (fst x, true) in
              match rest with
              | 110 :: _ => match i_name p with Some n => print n | None => Ok (mem, false) end
              | 107 :: _ => match i_key p with Some k => print (describe k) | None => Ok (mem, false) end
              | _ => Bug
              end
          end
      end
  end.
