(** C68: log messages *)
From Coq Require Import List NArith ZArith Bool String.
From Verif Require Import Base BufferModel AddrModel AddrSpec FormatModel FormatSpec LogModel LogTable LogSpec LogProofs2.
Import ListNotations.
Local Open Scope N_scope.

(** Every message of the program (LogTable.v), with all arguments of the types it is called
    with: no argument is fetched with a wrong type, no conversion is unknown, nothing is
    written outside of the buffer, and the text of the message, cut off after 1023 bytes,
    goes to exactly the destinations whose level includes it. *)
Theorem C68_messages : forall fuel l c buffer k vals, List.length buffer = 1024%nat -> lib_ok l -> In k calls -> Forall2 fits (k_args k) vals ->
  exists text, message l c (str (k_fmt k)) vals = Some text /\
    logf (S fuel) l c buffer (k_level k) (str (k_fmt k)) vals = Ok (destinations l c (k_level k) (firstn 1023 text)).
Proof. exact all_messages. Qed.

(** The texts of arguments: decimal numbers; MAC addresses as six pairs of hexadecimal digits; peers by their name, or the first eight bytes of
    their key; "(null)" if there is none (also with MAC addresses hidden). *)
Theorem C68_texts : (forall n, decimal (dec n) n) /\
  (forall z, (0 <= z)%Z -> decimal (zdec z) (Z.to_N z)) /\ (forall z, (z < 0)%Z -> exists s, zdec z = str "-" ++ s /\ decimal s (Z.to_N (- z))) /\
  (forall b, b < 256 -> two_digits (hex b) b) /\
  (forall b0 b1 b2 b3 b4 b5, mac_text [b0; b1; b2; b3; b4; b5] =
     hex b0 ++ str ":" ++ hex b1 ++ str ":" ++ hex b2 ++ str ":" ++ hex b3 ++ str ":" ++ hex b4 ++ str ":" ++ hex b5) /\
  (forall name key, peer_text (Some (Some name, key)) = str "<" ++ name ++ str ">") /\
  (forall key, (8 <= List.length key)%nat -> peer_text (Some (None, Some key)) = str "{" ++ flat_map hex (firstn 8 key) ++ str "}") /\
  peer_text None = str "(null)" /\
  (forall l c r, fetch l c 115 (VlStr None :: r) = text1 (str "(null)") r /\ fetch l c 69 (VlMac None :: r) = text1 (str "(null)") r).
Proof. exact texts. Qed.
Print Assumptions C68_texts.

(** With addresses hidden, what is logged is the same whatever the addresses of other hosts
    (resp. the MAC addresses) are. *)
Theorem C68_hidden : forall fuel l c buffer buffer' k vals vals', List.length buffer = 1024%nat -> List.length buffer' = 1024%nat -> lib_ok l -> In k calls ->
  Forall2 fits (k_args k) vals -> Forall2 fits (k_args k) vals' -> alike_all c (k_args k) vals vals' ->
  logf (S fuel) l c buffer (k_level k) (str (k_fmt k)) vals = logf (S fuel) l c buffer' (k_level k) (str (k_fmt k)) vals'.
Proof. exact all_hidden. Qed.

(** Messages without strings from packets are a single line, unless a name in the
    configuration or from the system has a line break. *)
Theorem C68_one_line : forall fuel l c buffer k vals, List.length buffer = 1024%nat -> lib_ok l -> lib_line l -> In k calls -> ~ In TNet (k_args k) ->
  Forall2 fits (k_args k) vals -> Forall2 fits_line (k_args k) vals ->
  exists o, logf (S fuel) l c buffer (k_level k) (str (k_fmt k)) vals = Ok o /\
    forall x, In x o -> lines (text_of_out x) = match x with OStderr _ => 1%nat | OSyslog _ _ => 0%nat end.
Proof. exact one_line. Qed.

(** This is false for the version a peer sends: a handshake response can make any text a
    line of the log (with the default level, and before the response is authenticated). *)
Theorem C68_one_line_refuted : forall l, lib_ok l -> newline_free (l_time l) ->
  exists k, In k calls /\
  forall c fuel buffer evil, List.length buffer = 1024%nat -> negb (lc_init c) || (k_level k <=? lc_stderr c) = true -> string evil -> (List.length evil <= 900)%nat ->
  exists vals before more, Forall2 fits (k_args k) vals /\ Forall2 fits_line (k_args k) vals /\
    logf (S fuel) l c buffer (k_level k) (str (k_fmt k)) vals = Ok (OStderr (before ++ 10 :: evil ++ [10]) :: more).
Proof. exact forged. Qed.

(** The warning about an unknown conversion has itself an unknown conversion: whatever the size
    of the stack, it is exceeded.  (By C68_messages this does not happen.) *)
Theorem C68_unknown_endless : forall fuel l c buffer level lit d rest vals, List.length buffer = 1024%nat -> ~ In 37 lit -> (List.length lit < 1024)%nat ->
  supported d = false -> level <= LL_WARN ->
  (negb (lc_init c) || (LL_WARN <=? lc_stderr c)) || (lc_init c && (LL_WARN <=? lc_syslog c)) = true ->
  logf fuel l c buffer level (lit ++ 37 :: d :: rest) vals = UB.
Proof. exact unknown_endless. Qed.

(** An example: "%I authenticated as %P" on both destinations, with the address shown and
    hidden *)
Definition ex_lib : lib := mk_lib (fun ip => Some (match ip with [a; b; c; d] => dec a ++ str "." ++ dec b ++ str "." ++ dec c ++ str "." ++ dec d | _ => str "?" end))
  (fun _ => Some (str "::")) (fun _ => None) (str "now --- ") (str "0x0").
Definition ex_conf (hide : bool) : logconf := mk_logconf true LL_VERBOSE LL_DEBUG2 hide false.
Definition ex_vals (host : N) : list val := [VlAddr (Some (AInet [192; 0; 2; host] [0x27; 0x10])) [0; 0]; VlPeer (Some (Some (str "alpha"), None))].
Example C68_nonvacuous : exists k, In k calls /\ k_line k = 121 /\ Forall2 fits (k_args k) (ex_vals 7) /\ Forall2 fits (k_args k) (ex_vals 8) /\
  alike_all (ex_conf true) (k_args k) (ex_vals 7) (ex_vals 8) /\ Forall2 fits_line (k_args k) (ex_vals 7) /\ ~ In TNet (k_args k) /\
  logf 1 ex_lib (ex_conf false) (repeat 7 1024) (k_level k) (str (k_fmt k)) (ex_vals 7) =
    Ok [OStderr (str "now --- Verbose: 192.0.2.7:10000 authenticated as <alpha>" ++ [10]); OSyslog 6 (str "192.0.2.7:10000 authenticated as <alpha>")] /\
  logf 1 ex_lib (ex_conf true) (repeat 7 1024) (k_level k) (str (k_fmt k)) (ex_vals 8) =
    Ok [OStderr (str "now --- Verbose: [hidden]:10000 authenticated as <alpha>" ++ [10]); OSyslog 6 (str "[hidden]:10000 authenticated as <alpha>")].
Proof.
  exists (mk_call "protocols/ec25519_fhmqvc/handshake.c" 121 LL_VERBOSE "%I authenticated as %P" [TRemote; TPeer]).
  split; [apply (nth_error_In calls 131); reflexivity|]. split; [reflexivity|].
  split; [repeat constructor; vm_compute; intuition discriminate|]. split; [repeat constructor; vm_compute; intuition discriminate|].
  split; [cbn; split; [right; repeat split; discriminate|split; [left; reflexivity|exact Logic.I]]|].
  split; [repeat constructor; vm_compute; intuition discriminate|]. split; [cbn; intuition discriminate|].
  split; vm_compute; reflexivity.
Qed.

Print Assumptions C68_messages.
Print Assumptions C68_hidden.
Print Assumptions C68_one_line.
Print Assumptions C68_one_line_refuted.
Print Assumptions C68_unknown_endless.
