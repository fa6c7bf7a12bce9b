(** C50: bounded formatting *)
From Verif Require Import Base BufferModel FormatModel FormatSpec FormatProofs.
Local Open Scope N_scope.

(** [snprintf_safe] changes only the [room] bytes at [pos], terminates the text, and
    returns at most [room]. *)
Theorem C50_snprintf_safe : forall (mem : bytes) pos room r, (0 < room)%nat -> (pos + room <= length mem)%nat ->
  exists mem' n, snprintf_safe mem pos room r = Ok (mem', n) /\ length mem' = length mem /\ (n <= room)%nat /\
    firstn pos mem' = firstn pos mem /\ skipn (pos + room) mem' = skipn (pos + room) mem /\
    match r with Text s => exists t, skipn pos mem' = firstn (room - 1) s ++ 0 :: t | Failed _ => n = O end.
Proof. exact safe_bounds. Qed.
Print Assumptions C50_snprintf_safe.

(** [fastd_vsnprintf] with a valid format never writes outside of the buffer.  If the text
    fits it is stored with a terminating NUL and its length is returned.  Otherwise the buffer has as much of
    the text as fits before the last byte. *)
Theorem C50_vsnprintf : forall hide mem fmt args out, (0 < length mem)%nat -> expand hide fmt args = Some out ->
  exists mem' n, fastd_vsnprintf hide mem fmt args = Ok (mem', Some n) /\ length mem' = length mem /\
    (n <= length mem + 2)%nat /\ (no_unspec args -> n <= length mem)%nat /\
    (length out < length mem -> n = length out /\ exists r, mem' = out ++ 0%N :: r)%nat /\
    (length mem <= length out -> length mem <= n /\ firstn (length mem - 1) mem' = firstn (length mem - 1) out)%nat.
Proof. exact vsnprintf_bounds. Qed.
Print Assumptions C50_vsnprintf.

(** A log message is its text, cut off after 1023 bytes. *)
Theorem C50_log_message : forall hide mem fmt args out, length mem = 1024%nat -> expand hide fmt args = Some out -> string out ->
  exists mem', logf_buffer hide mem fmt args = Ok mem' /\ length mem' = 1024%nat /\ cstr mem' = Some (firstn 1023 out).
Proof. exact logf_ok. Qed.
Print Assumptions C50_log_message.

(** An interface name is at most 15 bytes long and terminated, and accepted patterns never
    end in a bug. *)
Theorem C50_interface_name : forall mem conf_ifname single peer s,
  length mem = IFNAMSIZ -> pattern_of conf_ifname single peer = Some s -> ifname_valid s = true -> string s ->
  (forall p n, peer = Some p -> i_name p = Some n -> string n) ->
  match (match peer with Some p => name_text p s | None => match split_percent s with None => Some s | Some _ => None end end) with
  | Some t => exists mem', format_name mem conf_ifname single peer = Ok (mem', true) /\ length mem' = IFNAMSIZ /\ cstr mem' = Some (firstn 15 t)
  | None => format_name mem conf_ifname single peer = Ok (mem, false)
  end.
Proof. exact name_ok. Qed.
Print Assumptions C50_interface_name.
Theorem C50_no_interface_name : forall mem conf_ifname single peer, length mem = IFNAMSIZ -> pattern_of conf_ifname single peer = None ->
  exists mem', format_name mem conf_ifname single peer = Ok (mem', true) /\ length mem' = IFNAMSIZ /\ cstr mem' = Some [].
Proof. exact name_none. Qed.
Print Assumptions C50_no_interface_name.

(** [fastd_vsnprintf] itself does not terminate a text that ends in literal characters at the end
    of the buffer ("abcd" in 4 bytes), *)
Theorem C50_terminated_refuted : exists mem fmt args out mem' n, length mem = 4%nat /\ expand false fmt args = Some out /\
  fastd_vsnprintf false mem fmt args = Ok (mem', Some n) /\ cstr mem' = None.
Proof. exists [7; 7; 7; 7], [97; 98; 99; 100], [], [97; 98; 99; 100], [97; 98; 99; 100], 4%nat. repeat split. Qed.
Print Assumptions C50_terminated_refuted.
(** and returns more than the size if an unspecified address is cut off ("abc%I" in 4 bytes). *)
Theorem C50_length_refuted : exists mem fmt args out mem' n, length mem = 4%nat /\ expand false fmt args = Some out /\
  fastd_vsnprintf false mem fmt args = Ok (mem', Some n) /\ n = 6%nat.
Proof. exists [7; 7; 7; 7], [97; 98; 99; 37; 73], [VAddr (Some (ArgUnspec [48])) None], [97; 98; 99; 97; 110; 121], [97; 98; 99; 0], 6%nat. repeat split. Qed.
Print Assumptions C50_length_refuted.

(** "a%H: %s at %I" with a failing conversion, and in eight bytes; an interface name
    "vpn-%n0" for peer "somewhere-far" *)
Definition ex_fmt : bytes := [97; 37; 72; 58; 37; 115; 37; 73].
Definition ex_args : list arg := [VHex [0xde; 0x0f]; VText (Failed [1; 2; 3]); VAddr (Some (ArgInet (Some [49; 46; 50]) [56; 48])) None].
Example C50_hypotheses_met :
  expand false ex_fmt ex_args = Some [97; 100; 101; 48; 102; 58; 49; 46; 50; 58; 56; 48] /\
  fastd_vsnprintf false (repeat 9 8) ex_fmt ex_args = Ok ([97; 100; 101; 48; 102; 58; 49; 0], Some 8%nat) /\
  fastd_vsnprintf false (repeat 9 14) ex_fmt ex_args = Ok ([97; 100; 101; 48; 102; 58; 49; 46; 50; 58; 56; 48; 0; 9], Some 12%nat) /\
  ifname_valid [118; 112; 110; 45; 37; 110; 48] = true /\
  exists mem, format_name (repeat 9 16) (Some [118; 112; 110; 45; 37; 110; 48]) false (Some (mk_ifpeer None (Some [115; 111; 109; 101; 119; 104; 101; 114; 101; 45; 102; 97; 114]) None)) = Ok (mem, true) /\
    cstr mem = Some [118; 112; 110; 45; 115; 111; 109; 101; 119; 104; 101; 114; 101; 45; 102].
Proof. repeat split. eexists. split; reflexivity. Qed.
