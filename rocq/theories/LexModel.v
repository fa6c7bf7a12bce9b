(** The configuration lexer, src/lex.c.
    The input file is its contents, the sizes of the pieces in which [fread] returns it, and whether the end is the
    end of the file or a read error.  [inet_pton] is a parameter. *)
From Verif Require Import Base BufferModel.
From Coq Require Import String Ascii.
Local Open Scope N_scope.

(** [sizeof(lex->buffer)], lex.c L29 *)
Definition bufsize : nat := N.to_nat 1024.
(** [IFNAMSIZ] *)
Definition ifnamsiz : nat := 16%nat.

(** The error strings, lex.c L188, L197, L218, L227 *)
Inductive lex_error : Type := E_io | E_syntax | E_comment | E_string.
(** Tokens with their semantic values; a keyword token is written as the keyword *)
Inductive lexeme : Type :=
| LEof
| LError (e : lex_error)
| LChar (c : byte)
| LStr (v : bytes)
| LAddr6 (a : bytes)
| LAddr6Scoped (a ifname : bytes)
| LAddr4 (a : bytes)
| LUint (n : N)
| LKeyword (w : bytes).

(** [struct fastd_lex], lex.c L20-30, the state of the file, and [yylloc].  [x_data] is buffer[0..end); bytes behind
    [end] are never valid to read.  [x_sched] bounds the sizes of the next reads, [x_fail] says that the read behind
    [x_rest] fails instead of hitting the end of the file, [x_ferr] is [ferror]. *)
Record lexst := mk_lexst {
  x_data : bytes; x_start : nat; x_tok : nat; x_need : bool;
  x_rest : bytes; x_sched : list nat; x_fail : bool; x_ferr : bool;
  x_line : N; x_col : N; x_fline : N; x_fcol : N }.

Definition x_end (x : lexst) : nat := List.length (x_data x).

(** [fread]: at least one byte unless the contents are exhausted; the error indicator is set when a read comes back
    short at the end of the contents *)
Definition fread (want : nat) (x : lexst) : lexst * nat :=
  let l := Nat.min want (Nat.min (List.length (x_rest x)) (Nat.max 1 (hd want (x_sched x)))) in
  let rest := skipn l (x_rest x) in
  let ferr := x_ferr x || (x_fail x && Nat.eqb (List.length rest) 0 && Nat.ltb l want) in
  (mk_lexst (x_data x ++ firstn l (x_rest x)) (x_start x) (x_tok x) (x_need x) rest (tl (x_sched x)) (x_fail x) ferr
     (x_line x) (x_col x) (x_fline x) (x_fcol x), l).

(** [advance], lex.c L127-142 *)
Definition advance (x : lexst) : lexst * bool :=
  let x := mk_lexst (skipn (x_start x) (x_data x)) 0 (x_tok x) (x_need x) (x_rest x) (x_sched x) (x_fail x) (x_ferr x)
             (x_line x) (x_col x) (x_fline x) (x_fcol x) in
  if Nat.eqb (x_end x) bufsize then (x, false)
  else let (x, l) := fread (bufsize - x_end x) x in (x, negb (Nat.eqb l 0)).

(** [current], lex.c L145-147 *)
Definition current (x : lexst) : res byte :=
  match nth_error (x_data x) (x_start x + x_tok x) with Some c => Ok c | None => UB end.

(** [get_token], lex.c L150-152 (no token contains a NUL) *)
Definition get_token (x : lexst) : bytes := slice (x_data x) (x_start x) (x_tok x).

(** [next], lex.c L155-177 *)
Definition next (move : bool) (x : lexst) : res (lexst * bool) :=
  if Nat.leb (x_end x) (x_start x + x_tok x) then Ok (x, false)
  else
    do c <- current x;
    let '(line, col) := if c =? 10 then (x_line x + 1, 0) else (x_line x, x_col x + 1) in
    let '(start, tok) := if move then (S (x_start x), x_tok x) else (x_start x, S (x_tok x)) in
    let x := mk_lexst (x_data x) start tok (x_need x) (x_rest x) (x_sched x) (x_fail x) (x_ferr x) line col (x_fline x) (x_fcol x) in
    if Nat.leb (x_end x) (x_start x + x_tok x) then Ok (advance x) else Ok (x, true).

(** [consume], lex.c L180-185 *)
Definition consume (need : bool) (x : lexst) : lexst :=
  mk_lexst (x_data x) (x_start x + x_tok x) 0 need (x_rest x) (x_sched x) (x_fail x) (x_ferr x) (x_line x) (x_col x) (x_fline x) (x_fcol x).

(** [syntax_error], [unterminated_string] and the end of [consume_comment], lex.c L188-229 *)
Definition lex_fail (e : lex_error) (x : lexst) : lexst * lexeme := (x, LError (if x_ferr x then E_io else e)).

(** Loops run at most once per byte left *)
Definition fuel_of (x : lexst) : nat := S (List.length (x_data x) + List.length (x_rest x)).

(** The loop of [consume_comment], lex.c L205-213; [true] if the end of the comment was found *)
Fixpoint comment_loop (fuel : nat) (prev : byte) (x : lexst) : res (lexst * bool) :=
  match fuel with
  | O => UB
  | S f =>
    do (x, ok) <- next true x;
    if ok then
      do c <- current x;
      if (prev =? 42) && (c =? 47) then do (x, _) <- next true x; Ok (consume false x, true)
      else comment_loop f c x
    else Ok (x, false)
  end.

(** The loop of the line comments, lex.c L496-499 *)
Fixpoint line_loop (fuel : nat) (x : lexst) : res lexst :=
  match fuel with
  | O => UB
  | S f =>
    do (x, ok) <- next true x;
    if ok then do c <- current x; if c =? 10 then Ok x else line_loop f x
    else Ok x
  end.

(** The string buffer of [parse_string] with its capacity, lex.c L263-269 *)
Definition store (cap : nat) (buf : bytes) (c : byte) : res (nat * bytes) :=
  let cap := if Nat.leb cap (List.length buf) then (2 * cap)%nat else cap in
  if Nat.ltb (List.length buf) cap then Ok (cap, buf ++ [c]) else UB.

(** The loop of [parse_string], lex.c L242-270; [None] is an unterminated string *)
Fixpoint string_loop (fuel cap : nat) (buf : bytes) (x : lexst) : res (lexst * option bytes) :=
  match fuel with
  | O => UB
  | S f =>
    do (x, ok) <- next true x;
    if negb ok then Ok (x, None)
    else
      do c <- current x;
      if c =? 34 then Ok (x, Some buf)
      else if c =? 92 then
        do (x, ok) <- next true x;
        if negb ok then Ok (x, None)
        else
          do c <- current x;
          if c =? 10 then string_loop f cap buf x
          else do (cap, buf) <- store cap buf c; string_loop f cap buf x
      else do (cap, buf) <- store cap buf c; string_loop f cap buf x
  end.

(** [strnlen] in [fastd_string_stack_dupn], fastd.h L524-534 *)
Fixpoint cstr (l : bytes) : bytes := match l with [] => [] | c :: r => if c =? 0 then [] else c :: cstr r end.

(** [parse_string], lex.c L232-280 *)
Definition parse_string (x : lexst) : res (lexst * lexeme) :=
  if x_need x then Ok (lex_fail E_syntax x)
  else
    do (x, r) <- string_loop (fuel_of x) bufsize [] x;
    match r with
    | None => Ok (lex_fail E_string x)
    | Some buf => do (x, _) <- next true x; Ok (consume true x, LStr (cstr buf))
    end.

Definition is_digit (c : byte) : bool := (48 <=? c) && (c <=? 57).
Definition is_lower (c : byte) : bool := (97 <=? c) && (c <=? 122).
Definition is_upper (c : byte) : bool := (65 <=? c) && (c <=? 90).
Definition is_addr6 (c : byte) : bool := is_digit c || ((97 <=? c) && (c <=? 102)) || ((65 <=? c) && (c <=? 70)) || (c =? 58).
Definition is_addr4 (c : byte) : bool := is_digit c || (c =? 46).
Definition is_kw (c : byte) : bool := is_lower c || is_digit c || (c =? 45).

(** The first loop of [parse_ipv6_address], lex.c L287-296; [false] if the input ends *)
Fixpoint addr6_loop (fuel : nat) (x : lexst) : res (lexst * bool) :=
  match fuel with
  | O => UB
  | S f =>
    do (x, ok) <- next false x;
    if negb ok then Ok (x, false)
    else do c <- current x; if is_addr6 c then addr6_loop f x else Ok (x, true)
  end.

(** The loop for the interface name, lex.c L319-339; [ifname] is an array of [IFNAMSIZ] bytes *)
Fixpoint ifname_loop (fuel : nat) (name : bytes) (x : lexst) : res (lexst * option bytes) :=
  match fuel with
  | O => UB
  | S f =>
    do (x, ok) <- next true x;
    if negb ok then Ok (x, None)
    else
      do c <- current x;
      if c =? 93 then Ok (x, Some name)
      else
        do (x, c) <- (if c =? 92 then
                        do (x, ok) <- next true x;
                        if negb ok then Ok (x, None) else do c <- current x; Ok (x, Some c)
                      else Ok (x, Some c));
        match c with
        | None => Ok (x, None)
        | Some c =>
          if Nat.eqb (List.length name) (ifnamsiz - 1) then Ok (x, None)
          else if Nat.ltb (List.length name) ifnamsiz then ifname_loop f (name ++ [c]) x else UB
        end
  end.

(** Writing a byte of the buffer *)
Definition poke (i : nat) (c : byte) (x : lexst) : res lexst :=
  if Nat.ltb i (x_end x) then
    Ok (mk_lexst (overwrite (x_data x) i [c]) (x_start x) (x_tok x) (x_need x) (x_rest x) (x_sched x) (x_fail x) (x_ferr x)
          (x_line x) (x_col x) (x_fline x) (x_fcol x))
  else UB.

Section Lexer.
(** [inet_pton] for AF_INET and AF_INET6 *)
Variables pton4 pton6 : bytes -> option bytes.

(** [parse_ipv6_address], lex.c L283-347.  [inet_pton] reads the buffer from behind the bracket to the NUL. *)
Definition parse_ipv6_address (x : lexst) : res (lexst * lexeme) :=
  if x_need x then Ok (lex_fail E_syntax x)
  else
    do (x, ok) <- addr6_loop (fuel_of x) x;
    if negb ok then Ok (lex_fail E_syntax x)
    else
      do c <- current x;
      let ifname := c =? 37 in
      if ifname || (c =? 93) then
        do x <- poke (x_start x + x_tok x) 0 x;
        match pton6 (cstr (skipn (x_start x + 1) (x_data x))) with
        | None => Ok (lex_fail E_syntax x)
        | Some a =>
          if ifname then
            let x := consume false x in
            do (x, r) <- ifname_loop (fuel_of x) [] x;
            match r with
            | None => Ok (lex_fail E_syntax x)
            | Some name => do (x, _) <- next true x; Ok (consume true x, LAddr6Scoped a (cstr name))
            end
          else do (x, _) <- next true x; Ok (consume true x, LAddr6 a)
        end
      else Ok (lex_fail E_syntax x).

(** The loops of [parse_ipv4_address] and [parse_keyword], lex.c L354-359 and L414-419 *)
Fixpoint scan (P : byte -> bool) (fuel : nat) (x : lexst) : res lexst :=
  match fuel with
  | O => UB
  | S f =>
    do (x, ok) <- next false x;
    if ok then do c <- current x; if P c then scan P f x else Ok x
    else Ok x
  end.

(** [parse_ipv4_address], lex.c L350-372 *)
Definition parse_ipv4_address (x : lexst) : res (lexst * lexeme) :=
  if x_need x then Ok (lex_fail E_syntax x)
  else
    do x <- scan is_addr4 (fuel_of x) x;
    match pton4 (get_token x) with
    | None => Ok (lex_fail E_syntax x)
    | Some a => Ok (consume true x, LAddr4 a)
    end.

(** [strtoull] with base 0 on a token of digits and letters that starts with a digit; the result saturates, [None] if
    [endptr] is not the end of the token *)
Definition digit_val (c : byte) : N :=
  if is_digit c then c - 48 else if is_lower c then c - 87 else if is_upper c then c - 55 else 99.
Definition ullong_max : N := 2 ^ 64 - 1.
Fixpoint strtoull_loop (base acc : N) (s : bytes) : option N :=
  match s with
  | [] => Some acc
  | c :: r =>
    let d := digit_val c in
    if d <? base then strtoull_loop base (if (ullong_max - d) / base <? acc then ullong_max else acc * base + d) r
    else None
  end.
Definition strtoull (s : bytes) : option N :=
  match s with
  | 48 :: x :: r =>
    if ((x =? 120) || (x =? 88)) then match r with [] => None | _ => strtoull_loop 16 0 r end
    else strtoull_loop 8 0 (x :: r)
  | _ => strtoull_loop 10 0 s
  end.

(** The loop of [parse_number], lex.c L381-393; [true] if it goes on as an IPv4 address *)
Fixpoint number_loop (fuel : nat) (digitonly : bool) (x : lexst) : res (lexst * bool) :=
  match fuel with
  | O => UB
  | S f =>
    do (x, ok) <- next false x;
    if ok then
      do c <- current x;
      if (c =? 46) && digitonly then Ok (x, true)
      else if is_digit c then number_loop f digitonly x
      else if is_lower c || is_upper c then number_loop f false x
      else Ok (x, false)
    else Ok (x, false)
  end.

(** [parse_number], lex.c L375-407 *)
Definition parse_number (x : lexst) : res (lexst * lexeme) :=
  if x_need x then Ok (lex_fail E_syntax x)
  else
    do (x, v4) <- number_loop (fuel_of x) true x;
    if v4 then parse_ipv4_address x
    else
      match strtoull (get_token x) with
      | None => Ok (lex_fail E_syntax x)
      | Some n => Ok (consume true x, LUint n)
      end.

Definition w (s : string) : bytes := map N_of_ascii (list_ascii_of_string s).

(** The keyword table, lex.c L44-118 *)
Definition keywords : list bytes :=
  [w "addresses"; w "any"; w "as"; w "async"; w "auto"; w "bind"; w "capabilities"; w "cipher"; w "connect";
   w "debug"; w "debug2"; w "default"; w "disestablish"; w "down"; w "drop"; w "early"; w "error";
   w "establish"; w "fatal"; w "float"; w "force"; w "forward"; w "from"; w "group"; w "handshakes"; w "hide";
   w "include"; w "info"; w "interface"; w "ip"; w "ipv4"; w "ipv6"; w "key"; w "l2tp"; w "level"; w "limit";
   w "log"; w "mac"; w "mark"; w "method"; w "mode"; w "mtu"; w "multitap"; w "no"; w "offload"; w "on";
   w "packet"; w "peer"; w "peers"; w "persist"; w "pmtu"; w "port"; w "post-down"; w "pre-up"; w "protocol";
   w "remote"; w "secret"; w "secure"; w "socket"; w "status"; w "stderr"; w "sync"; w "syslog"; w "tap";
   w "to"; w "tun"; w "up"; w "use"; w "user"; w "verbose"; w "verify"; w "warn"; w "yes"].

(** [strcmp] *)
Fixpoint strcmp (a b : bytes) : comparison :=
  match a, b with
  | [], [] => Eq
  | [], _ => Lt
  | _, [] => Gt
  | c :: a, d :: b => match c ?= d with Eq => strcmp a b | r => r end
  end.

(** [bsearch]: the index of the element found in [lo, hi) *)
Fixpoint bsearch (fuel : nat) (key : bytes) (lo hi : nat) : option nat :=
  match fuel with
  | O => None
  | S f =>
    if Nat.ltb lo hi then
      let mid := Nat.div2 (lo + hi) in
      match strcmp key (nth mid keywords []) with
      | Lt => bsearch f key lo mid
      | Gt => bsearch f key (S mid) hi
      | Eq => Some mid
      end
    else None
  end.

(** [parse_keyword], lex.c L410-432 *)
Definition parse_keyword (x : lexst) : res (lexst * lexeme) :=
  if x_need x then Ok (lex_fail E_syntax x)
  else
    do x <- scan is_kw (fuel_of x) x;
    match bsearch (S (List.length keywords)) (get_token x) 0 (List.length keywords) with
    | None => Ok (lex_fail E_syntax x)
    | Some i => Ok (consume true x, LKeyword (nth i keywords []))
    end.

(** [fastd_lex_init], lex.c L436-443, with the location of config.c L343 *)
Definition lex_init (contents : bytes) (sched : list nat) (fail : bool) : lexst :=
  fst (advance (mk_lexst [] 0 0 false contents sched fail false 1 0 1 0)).

(** The part of [fastd_lex] for line comments, lex.c L495-503, up to the next round of the loop *)
Definition line_comment (x : lexst) : res lexst :=
  do x <- line_loop (fuel_of x) x;
  do (x, _) <- next true x;
  Ok (consume false x).

(** [fastd_lex], lex.c L451-531 *)
Fixpoint lex (fuel : nat) (x : lexst) : res (lexst * lexeme) :=
  match fuel with
  | O => UB
  | S f =>
    if Nat.ltb (x_start x) (x_end x) then
      let x := mk_lexst (x_data x) (x_start x) (x_tok x) (x_need x) (x_rest x) (x_sched x) (x_fail x) (x_ferr x)
                 (x_line x) (x_col x) (x_line x) (x_col x + 1) in
      do c <- current x;
      if (c =? 32) || (c =? 10) || (c =? 9) || (c =? 13) then
        do (x, _) <- next true x; lex f (consume false x)
      else if (c =? 59) || (c =? 58) || (c =? 123) || (c =? 125) then
        do (x, _) <- next true x; Ok (consume false x, LChar c)
      else if c =? 47 then
        do (x, ok) <- next true x;
        if negb ok then Ok (lex_fail E_syntax x)
        else
          do c <- current x;
          if c =? 42 then
            do (x, ok) <- comment_loop (fuel_of x) 0 x;
            if ok then lex f x else Ok (lex_fail E_comment x)
          else if c =? 47 then do x <- line_comment x; lex f x
          else Ok (lex_fail E_syntax x)
      else if c =? 35 then do x <- line_comment x; lex f x
      else if c =? 34 then parse_string x
      else if c =? 91 then parse_ipv6_address x
      else if is_digit c then parse_number x
      else if is_lower c then parse_keyword x
      else Ok (lex_fail E_syntax x)
    else Ok (x, if x_ferr x then LError E_io else LEof)
  end.

(** What the parser gets: calls of [fastd_lex] up to the end of the file or an error, each with the location it leaves
    in [yylloc] *)
Definition pos : Type := (N * N)%type.
Definition item : Type := (lexeme * pos * pos)%type.
Fixpoint lex_all (fuel : nat) (x : lexst) : res (list item) :=
  match fuel with
  | O => UB
  | S f =>
    do (x, l) <- lex (fuel_of x) x;
    let it := (l, (x_fline x, x_fcol x), (x_line x, x_col x)) in
    match l with
    | LEof | LError _ => Ok [it]
    | _ => do r <- lex_all f x; Ok (it :: r)
    end
  end.
Definition lex_file (contents : bytes) (sched : list nat) (fail : bool) : res (list item) :=
  let x := lex_init contents sched fail in lex_all (fuel_of x) x.
End Lexer.
