(** What the lexer should do, on the whole contents of the file: no buffer, no reads. *)
From Verif Require Import Base LexModel.
Local Open Scope N_scope.

Fixpoint take_while (P : byte -> bool) (s : bytes) : bytes :=
  match s with c :: r => if P c then c :: take_while P r else [] | [] => [] end.

(** Number of bytes up to and including the first "*/" *)
Fixpoint comment_len (s : bytes) : option nat :=
  match s with
  | [] => None
  | c :: r =>
    match r with
    | d :: _ => if (c =? 42) && (d =? 47) then Some 2%nat else option_map S (comment_len r)
    | [] => None
    end
  end.
(** Number of bytes up to and including the next newline, or to the end *)
Fixpoint line_len (s : bytes) : nat := match s with [] => 0%nat | c :: r => if c =? 10 then 1%nat else S (line_len r) end.

(** The value of a string from behind the opening quote, and its length in the file; a backslash quotes the next byte,
    and hides a newline *)
Fixpoint unquote (s : bytes) : option (bytes * nat) :=
  match s with
  | [] => None
  | c :: r =>
    if c =? 34 then Some ([], 1%nat)
    else if c =? 92 then
      match r with
      | [] => None
      | d :: r => match unquote r with Some (v, n) => Some (if d =? 10 then v else d :: v, S (S n)) | None => None end
      end
    else match unquote r with Some (v, n) => Some (c :: v, S n) | None => None end
  end.
(** The same for an interface name up to the closing bracket *)
Fixpoint unquote_name (s : bytes) : option (bytes * nat) :=
  match s with
  | [] => None
  | c :: r =>
    if c =? 93 then Some ([], 1%nat)
    else if c =? 92 then
      match r with
      | [] => None
      | d :: r => match unquote_name r with Some (v, n) => Some (d :: v, S (S n)) | None => None end
      end
    else match unquote_name r with Some (v, n) => Some (c :: v, S n) | None => None end
  end.

(** Numbers: decimal, octal with a leading 0, or hexadecimal; too large ones are read as the largest one *)
Definition digits_val (base : N) (s : bytes) : option N :=
  if forallb (fun c => digit_val c <? base) s
  then Some (N.min ullong_max (fold_left (fun a c => a * base + digit_val c) s 0)) else None.
Definition number (s : bytes) : option N :=
  match s with
  | c :: x :: r =>
    if c =? 48 then
      if (x =? 120) || (x =? 88) then match r with [] => None | _ => digits_val 16 r end else digits_val 8 (x :: r)
    else digits_val 10 s
  | _ => digits_val 10 s
  end.

(** The piece at the start of the contents: something to skip with its length; a token with its length; an error.
    [last] says that nothing behind the token is looked at. *)
Inductive piece : Type :=
| PSkip (n : nat)
| PTok (l : lexeme) (n : nat) (need last : bool)
| PFail (e : lex_error).

Section Spec.
Variables pton4 pton6 : bytes -> option bytes.

Definition is_space (c : byte) : bool := existsb (N.eqb c) [32; 10; 9; 13].
Definition is_punct (c : byte) : bool := existsb (N.eqb c) [59; 58; 123; 125].
Definition is_alnum (c : byte) : bool := is_digit c || is_lower c || is_upper c.

Definition spec_string (r : bytes) : piece :=
  match unquote r with Some (v, n) => PTok (LStr (cstr v)) (S n) true false | None => PFail E_string end.

Definition spec_addr6 (r : bytes) : piece :=
  let a := take_while is_addr6 r in
  match skipn (length a) r with
  | [] => PFail E_syntax
  | t :: r' =>
    if t =? 93 then match pton6 a with Some v => PTok (LAddr6 v) (2 + length a) true false | None => PFail E_syntax end
    else if t =? 37 then
      match pton6 a, unquote_name r' with
      | Some v, Some (name, n) =>
        if Nat.ltb (length name) ifnamsiz then PTok (LAddr6Scoped v (cstr name)) (2 + length a + n) true false else PFail E_syntax
      | _, _ => PFail E_syntax
      end
    else PFail E_syntax
  end.

(** A number that does not fit into the lexer's buffer is cut there, and what follows it is ignored *)
Definition spec_number (s : bytes) : piece :=
  let d := take_while is_digit s in
  if Nat.ltb (length d) bufsize && (hd 0 (skipn (length d) s) =? 46) then
    let a := take_while is_addr4 s in
    match pton4 a with Some v => PTok (LAddr4 v) (length a) true false | None => PFail E_syntax end
  else
    let t := firstn bufsize (take_while is_alnum s) in
    match number t with Some v => PTok (LUint v) (length t) true (Nat.eqb (length t) bufsize) | None => PFail E_syntax end.

Definition spec_keyword (s : bytes) : piece :=
  let t := take_while is_kw s in
  if in_dec (list_eq_dec N.eq_dec) t keywords then PTok (LKeyword t) (length t) true false else PFail E_syntax.

Definition spec_piece (need : bool) (s : bytes) : piece :=
  match s with
  | [] => PFail E_syntax
  | c :: r =>
    if is_space c then PSkip 1
    else if is_punct c then PTok (LChar c) 1 false false
    else if c =? 35 then PSkip (1 + line_len r)
    else if c =? 47 then
      match r with
      | d :: r' =>
        if d =? 42 then match comment_len r' with Some n => PSkip (2 + n) | None => PFail E_comment end
        else if d =? 47 then PSkip (2 + line_len r')
        else PFail E_syntax
      | [] => PFail E_syntax
      end
    else if need then PFail E_syntax
    else if c =? 34 then spec_string r
    else if c =? 91 then spec_addr6 r
    else if is_digit c then spec_number s
    else if is_lower c then spec_keyword s
    else PFail E_syntax
  end.

(** Lines and columns *)
Definition adv1 (p : pos) (c : byte) : pos := if c =? 10 then (fst p + 1, 0) else (fst p, snd p + 1).
Definition adv (p : pos) (s : bytes) : pos := fold_left adv1 s p.

Definition nopos : pos := (0, 0).
(** Each round consumes at least a byte, so the length of the contents bounds the number of rounds *)
Fixpoint spec_lex (fuel : nat) (fail need : bool) (p : pos) (s : bytes) : list item :=
  match fuel, s with
  | O, _ => []
  | _, [] => [(if fail then LError E_io else LEof, nopos, nopos)]
  | S f, _ =>
    match spec_piece need s with
    | PSkip n => spec_lex f fail false (adv p (firstn n s)) (skipn n s)
    | PTok l n need' last =>
      let p' := adv p (firstn n s) in
      (l, (fst p, snd p + 1), p') ::
      if last then [(LEof, nopos, nopos)] else spec_lex f fail need' p' (skipn n s)
    | PFail e => [(LError e, nopos, nopos)]
    end
  end.
Definition spec_file (fail : bool) (s : bytes) : list item := spec_lex (S (length s)) fail false (1, 0) s.
End Spec.

(** What is compared: the location of the end and of errors is left open; if reading the file fails, every error may be
    reported as an I/O error *)
Definition observe (fail : bool) (it : item) : item :=
  match it with
  | (LEof, _, _) => (LEof, nopos, nopos)
  | (LError e, _, _) => (LError (if fail then E_io else e), nopos, nopos)
  | _ => it
  end.

(** * A grammar for correct files *)

(** The text of a string between the quotes, and its value *)
Inductive quoted : bytes -> bytes -> Prop :=
| Q_nil : quoted [] []
| Q_plain c b v : c <> 34 -> c <> 92 -> quoted b v -> quoted (c :: b) (c :: v)
| Q_escape c b v : c <> 10 -> quoted b v -> quoted (92 :: c :: b) (c :: v)
| Q_newline b v : quoted b v -> quoted (92 :: 10 :: b) v.
(** The same for interface names *)
Inductive quoted_name : bytes -> bytes -> Prop :=
| QN_nil : quoted_name [] []
| QN_plain c b v : c <> 93 -> c <> 92 -> quoted_name b v -> quoted_name (c :: b) (c :: v)
| QN_escape c b v : quoted_name b v -> quoted_name (92 :: c :: b) (c :: v).

Definition starts (P : byte -> bool) (s : bytes) : bool := match s with c :: _ => P c | [] => false end.

Section Grammar.
Variables pton4 pton6 : bytes -> option bytes.

(** [lexes need s l]: the text [s] is made of the tokens [l] with comments and blanks; [need] says that a word, number,
    address or string may not follow immediately *)
Inductive lexes : bool -> bytes -> list lexeme -> Prop :=
| X_end need : lexes need [] []
| X_space need c s l : is_space c = true -> lexes false s l -> lexes need (c :: s) l
| X_punct need c s l : is_punct c = true -> lexes false s l -> lexes need (c :: s) (LChar c :: l)
| X_block need b s l : (forall a r, b ++ [42] <> a ++ 42 :: 47 :: r) -> lexes false s l -> lexes need (47 :: 42 :: b ++ 42 :: 47 :: s) l
| X_line need m b s l : m = [35] \/ m = [47; 47] -> ~ In 10 b -> lexes false s l -> lexes need (m ++ b ++ 10 :: s) l
| X_line_end need m b : m = [35] \/ m = [47; 47] -> ~ In 10 b -> lexes need (m ++ b) []
| X_string b v s l : quoted b v -> lexes true s l -> lexes false (34 :: b ++ 34 :: s) (LStr (cstr v) :: l)
| X_addr6 a v s l : forallb is_addr6 a = true -> pton6 a = Some v -> lexes true s l -> lexes false (91 :: a ++ 93 :: s) (LAddr6 v :: l)
| X_addr6_scoped a v b name s l : forallb is_addr6 a = true -> pton6 a = Some v -> quoted_name b name -> (length name < ifnamsiz)%nat ->
    lexes true s l -> lexes false (91 :: a ++ 37 :: b ++ 93 :: s) (LAddr6Scoped v (cstr name) :: l)
| X_addr4 d a v s l : d <> [] -> forallb is_digit d = true -> forallb is_addr4 a = true -> starts is_addr4 s = false -> (length d < bufsize)%nat ->
    pton4 (d ++ 46 :: a) = Some v -> lexes true s l -> lexes false ((d ++ 46 :: a) ++ s) (LAddr4 v :: l)
| X_number c t n s l : is_digit c = true -> forallb is_alnum t = true -> starts is_alnum s = false ->
    ~ (forallb is_digit t = true /\ starts (N.eqb 46) s = true) -> (S (length t) < bufsize)%nat ->
    number (c :: t) = Some n -> lexes true s l -> lexes false ((c :: t) ++ s) (LUint n :: l)
| X_keyword c t s l : is_lower c = true -> forallb is_kw t = true -> starts is_kw s = false -> In (c :: t) keywords ->
    lexes true s l -> lexes false ((c :: t) ++ s) (LKeyword (c :: t) :: l).
End Grammar.

(** No run of letters and digits fills the buffer *)
Definition no_long_number (s : bytes) : Prop := forall a t b, s = a ++ t ++ b -> forallb is_alnum t = true -> (length t < bufsize)%nat.

Definition tokens (l : list item) : list lexeme := map (fun it => fst (fst it)) l.
