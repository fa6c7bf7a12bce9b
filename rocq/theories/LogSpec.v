(** What is logged *)
From Coq Require Import String.
From Verif Require Import Base BufferModel MethodModel AddrModel AddrSpec FormatModel FormatSpec HexSpec LogModel LogTable.
Local Open Scope N_scope.

Definition newline_free (s : bytes) : Prop := ~ In 10 s.

(** Values of the types of LogTable.v *)
Definition fits (t : ty) (v : val) : Prop :=
  match t, v with
  | TInt, VlInt _ => True
  | TNat, VlInt z => (0 <= z)%Z
  | TUint, VlUint _ => True
  | TSize, VlLong _ => True
  | TStr, VlStr (Some s) | TStrNull, VlStr (Some s) | TNet, VlStr (Some s) => string s
  | TStrNull, VlStr None => True
  | TMac, VlMac (Some a) => List.length a = 6%nat
  | TPeer, VlPeer (Some (Some name, _)) => string name
  | TPeer, VlPeer _ => True
  | TKey, VlData d => List.length d = 32%nat
  | TKeyLen, VlLong n => n = 32
  | TRemote, VlAddr (Some a) _ | TBind, VlAddr (Some a) _ => match a with AOther _ => False | _ => True end
  | _, _ => False
  end.
(** Values without line breaks, except for strings received in packets *)
Definition fits_line (t : ty) (v : val) : Prop :=
  match t, v with
  | TStr, VlStr (Some s) | TStrNull, VlStr (Some s) => newline_free s
  | TPeer, VlPeer (Some (Some name, _)) => newline_free name
  | _, _ => True
  end.
Definition lib_ok (l : lib) : Prop :=
  (forall ip s, l_ntop4 l ip = Some s -> string s) /\ (forall ip s, l_ntop6 l ip = Some s -> string s) /\
  (forall i s, l_ifname l i = Some s -> string s).
Definition lib_line (l : lib) : Prop :=
  (forall ip s, l_ntop4 l ip = Some s -> newline_free s) /\ (forall ip s, l_ntop6 l ip = Some s -> newline_free s) /\
  (forall i s, l_ifname l i = Some s -> newline_free s) /\ newline_free (l_time l).

(** The text of an address; remote ones may be hidden *)
Definition spec_addr (l : lib) (hide : bool) (iface : option bytes) (a : saddr) (port0 : bytes) (remote : bool) : bytes :=
  let port p := str ":" ++ dec (be_val p) in
  match a with
  | AUnspec => str "any" ++ (if remote then [] else port port0)
  | AInet ip p =>
      if hide then str "[hidden]" ++ port p
      else match l_ntop4 l ip with Some s => s ++ port p | None => [] end
  | AInet6 ip p _ scope =>
      if hide then str "[hidden]" ++ port p
      else
        match l_ntop6 l ip with
        | Some s =>
            str "[" ++ s ++
            (match iface, (if is_linklocal ip then l_ifname l scope else None) with
             | Some i, _ | None, Some i => str "%" ++ i
             | None, None => []
             end) ++ str "]" ++ port p
        | None => []
        end
  | AOther _ => []
  end.

(** The text of the arguments of a conversion *)
Definition letter (d : N) (s : String.string) : bool := match str s with [x] => d =? x | _ => false end.
Definition spec_conversion (l : lib) (c : logconf) (d : N) (vals : list val) : option (bytes * list val) :=
  match vals with
  | VlInt z :: r => if letter d "i" || letter d "u" then Some (zdec z, r) else None
  | VlUint n :: r => if letter d "u" then Some (dec n, r) else None
  | VlData data :: VlLong n :: r => if letter d "H" then Some (flat_map hex (firstn (N.to_nat n) data), r) else None
  | VlLong n :: r => if letter d "Z" || letter d "U" then Some (dec n, r) else None
  | VlStr (Some s) :: r => if letter d "s" then Some (s, r) else None
  | VlStr None :: r => if letter d "s" then Some (str "(null)", r) else None
  | VlMac (Some a) :: r => if letter d "E" then Some (if lc_hide_mac c then str "[hidden]" else mac_text a, r) else None
  | VlPeer p :: r => if letter d "P" then Some (peer_text p, r) else None
  | VlAddr (Some a) port :: r =>
      if letter d "I" then Some (spec_addr l (lc_hide_ip c) None a port true, r)
      else if letter d "B" then Some (spec_addr l false None a port false, r)
      else if letter d "L" then
        match r with VlStr iface :: r => Some (spec_addr l false iface a port false, r) | _ => None end
      else None
  | _ => None
  end.
Fixpoint message (l : lib) (c : logconf) (fmt : bytes) (vals : list val) : option bytes :=
  match fmt with
  | [] => Some []
  | x :: fmt =>
      if negb (letter x "%") then option_map (cons x) (message l c fmt vals)
      else
        match fmt with
        | [] => None
        | d :: fmt =>
            if letter d "%" then option_map (app (str "%")) (message l c fmt vals)
            else
              match spec_conversion l c d vals with
              | Some (s, r) => option_map (app s) (message l c fmt r)
              | None => None
              end
        end
  end.

(** The levels from fatal (1) to debug2 (7): their names, and LOG_CRIT to LOG_DEBUG *)
Definition level_name (level : N) : bytes :=
  nth (N.to_nat level) (map str [""; "Fatal: "; "Error: "; "Warning: "; "Info: "; "Verbose: "; "DEBUG: "; "DEBUG2: "]%string) [].
Definition priority (level : N) : N := nth (N.to_nat level) [7; 2; 3; 4; 5; 6; 7; 7] 7.

(** Where a message of a level goes *)
Definition destinations (l : lib) (c : logconf) (level : N) (text : bytes) : list out :=
  (if negb (lc_init c) || (level <=? lc_stderr c) then [OStderr (l_time l ++ level_name level ++ text ++ [10])] else []) ++
  (if lc_init c && (level <=? lc_syslog c) then [OSyslog (priority level) text] else []).

(** Arguments that only differ in what is to be hidden: addresses of other hosts (but not
    their ports, and an address remains an address), MAC addresses *)
Definition host_port (a : saddr) : option bytes :=
  match a with AInet _ p => Some p | AInet6 _ p _ _ => Some p | _ => None end.
Definition alike (c : logconf) (t : ty) (v v' : val) : Prop :=
  v = v' \/
  match t, v, v' with
  | TRemote, VlAddr (Some a) p, VlAddr (Some a') p' => lc_hide_ip c = true /\ host_port a <> None /\ host_port a = host_port a'
  | TMac, VlMac (Some _), VlMac (Some _) => lc_hide_mac c = true
  | _, _, _ => False
  end.
Fixpoint alike_all (c : logconf) (ts : list ty) (vs vs' : list val) : Prop :=
  match ts, vs, vs' with
  | [], [], [] => True
  | t :: ts, v :: vs, v' :: vs' => alike c t v v' /\ alike_all c ts vs vs'
  | _, _, _ => False
  end.

(** The bytes written *)
Definition text_of_out (o : out) : bytes := match o with OStderr s => s | OSyslog _ s => s end.
Definition lines (s : bytes) : nat := List.length (filter (N.eqb 10) s).

(** The conversions there are *)
Definition supported (d : N) : bool := existsb (N.eqb d) (str "%iuUZspEPHIBL").

(** Numbers without superfluous zeros, bytes in lower case *)
Definition decimal (s : bytes) (n : N) : Prop :=
  (forall c, In c s -> 48 <= c <= 57) /\ fold_left (fun v c => 10 * v + (c - 48)) s 0 = n /\ s <> [] /\
  (forall r, s = 48 :: r -> r = []).
Definition two_digits (s : bytes) (b : N) : Prop := spells s [b] /\ forall c, In c s -> ~ is_capital c.
