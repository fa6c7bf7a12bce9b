(** The whole text of a message, without any limit *)
From Verif Require Import Base FormatModel.
Local Open Scope N_scope.

Definition text_of (r : rendering) : bytes := match r with Text s => s | Failed _ => [] end.

(** The text of an address, None if it cannot be printed *)
Definition address_text (a : addr_arg) (iface : option bytes) (bind_address hide : bool) : option bytes :=
  match a with
  | ArgUnspec port => Some (if bind_address then str_any ++ [58] ++ port else str_any)
  | ArgInet ntop port =>
      Some (if negb bind_address && hide then str_hidden ++ [58] ++ port
            else match ntop with Some t => t ++ [58] ++ port | None => [] end)
  | ArgInet6 ntop linklocal ifname port =>
      Some (if negb bind_address && hide then str_hidden ++ [58] ++ port
            else match ntop with
                 | Some t =>
                     match iface, linklocal, ifname with
                     | Some i, _, _ => [91] ++ t ++ [37] ++ i ++ [93; 58] ++ port
                     | None, true, Some i => [91] ++ t ++ [37] ++ i ++ [93; 58] ++ port
                     | _, _, _ => [91] ++ t ++ [93; 58] ++ port
                     end
                 | None => []
                 end)
  | ArgOther => None
  end.
Definition addr_text (a : option addr_arg) (iface : option bytes) (bind_address hide : bool) (fail : option bytes) : option bytes :=
  match a, fail with
  | None, None => Some str_null
  | None, Some _ => Some []
  | Some (ArgUnspec _ as a), Some _ => if bind_address then Some [] else None
  | Some ArgOther, _ => None
  | Some _, Some _ => Some []
  | Some a, None => address_text a iface bind_address hide
  end.

(** What a conversion prints, and the remaining arguments; None if the conversion is
    invalid or the argument has the wrong type *)
Definition conversion (hide : bool) (d : N) (args : list arg) : option (bytes * list arg) :=
  if d =? 37 then Some ([37], args)
  else if simple_conv d then match args with VText r :: args => Some (text_of r, args) | _ => None end
  else if d =? 72 then match args with VHex data :: args => Some (flat_map hex data, args) | _ => None end
  else if (d =? 73) || (d =? 66) then
    match args with
    | VAddr a fail :: args => option_map (fun s => (s, args)) (addr_text a None (negb (d =? 73)) hide fail)
    | _ => None
    end
  else if d =? 76 then
    match args with
    | VAddrIf a iface fail :: args => option_map (fun s => (s, args)) (addr_text a iface true hide fail)
    | _ => None
    end
  else None.

Fixpoint expand (hide : bool) (fmt : bytes) (args : list arg) : option bytes :=
  match fmt with
  | [] => Some []
  | c :: fmt =>
      if negb (c =? 37) then option_map (cons c) (expand hide fmt args)
      else match fmt with
           | [] => None
           | d :: fmt =>
               match conversion hide d args with
               | Some (s, args) => option_map (app s) (expand hide fmt args)
               | None => None
               end
           end
  end.

(** no NUL byte *)
Definition string (s : bytes) : Prop := ~ In 0 s.
(** no address without family is printed as %I *)
Fixpoint no_unspec (args : list arg) : Prop :=
  match args with
  | [] => True
  | VAddr (Some (ArgUnspec _)) _ :: _ => False
  | _ :: r => no_unspec r
  end.
(** the name of an interface by its pattern *)
Definition name_text (p : ifpeer) (s : bytes) : option bytes :=
  match split_percent s with
  | None => Some s
  | Some (prefix, rest) =>
      match (if hd 0 rest =? 110 then i_name p else option_map describe (i_key p)) with
      | Some t => Some (prefix ++ t ++ tl rest)
      | None => None
      end
  end.
(** The pattern for a peer's interface *)
Definition pattern_of (conf_ifname : option bytes) (single : bool) (peer : option ifpeer) : option bytes :=
  match peer with
  | None => conf_ifname
  | Some p =>
      match i_ifname p with
      | Some s => Some s
      | None =>
          if negb single && negb (match conf_ifname with Some s => existsb (N.eqb 37) s | None => false end) then None
          else conf_ifname
      end
  end.
