(** Method names.  Source: the functions [method_create_by_name] of all method
    providers in src/methods, src/methods/methods.c.in, the lookups by name in
    src/crypto/cipher/ciphers.c.in and src/crypto/mac/macs.c.in, and the handling
    of the configured methods in src/config.c.

    A C string is the list of its bytes without the final zero.  A local array is
    a list of cells, [None] as long as nothing was written there; reading such a
    cell or outside the array, writing outside it, and an array of size zero (C11
    6.7.6.2) are undefined behaviour. *)
From Verif Require Import Base BufferModel MethodModel.
From Coq Require Import String Ascii.

Definition str (s : string) : bytes := map N_of_ascii (list_ascii_of_string s).

(** * Local arrays *)
Definition cells := list (option N).

Definition vla (n : nat) : res cells := match n with O => UB | _ => Ok (repeat None n) end.
Definition put (a : cells) (off : nat) (d : bytes) : res cells :=
  if Nat.leb (off + List.length d) (List.length a)
  then Ok (firstn off a ++ map Some d ++ skipn (off + List.length d) a) else UB.
(** the C string beginning at [a] *)
Fixpoint cstr (a : cells) : res bytes :=
  match a with
  | [] | None :: _ => UB
  | Some b :: r => if N.eqb b 0 then Ok [] else do s <- cstr r; Ok (b :: s)
  end.
(** [strchr]: the offset of the first [c] (not zero) in the string *)
Fixpoint chr (c : N) (a : cells) (i : nat) : res (option nat) :=
  match a with
  | [] | None :: _ => UB
  | Some b :: r => if N.eqb b c then Ok (Some i) else if N.eqb b 0 then Ok None else chr c r (S i)
  end.
(** memcpy(dst, name, n), where [name] is a C string: its final zero is readable *)
Definition copy_from (a : cells) (off : nat) (name : bytes) (n : nat) : res cells :=
  if Nat.leb n (List.length name + 1) then put a off (firstn n (name ++ [0%N])) else UB.
(** strcmp(name + off, lit) == 0; an offset beyond the string's final zero is out of bounds *)
Definition tail_is (name : bytes) (off : nat) (lit : bytes) : res bool :=
  if Nat.leb off (List.length name) then Ok (bytes_eqb (skipn off name) lit) else UB.

(** * Ciphers and MACs *)
Record cipher_info := mk_cipher { ci_name : bytes; ci_iv : nat }.

(** All ciphers which can be compiled in: src/crypto/cipher/meson.build L3-6,
    aes128_ctr.c L18-21, null.c L18-21, salsa20.c L18-21, salsa2012.c L18-21 *)
Definition all_ciphers : list cipher_info :=
  [mk_cipher (str "aes128-ctr") 16; mk_cipher (str "null") 0;
   mk_cipher (str "salsa20") 8; mk_cipher (str "salsa2012") 8].
Definition all_macs : list bytes := [str "ghash"; str "uhash"].

(** What was compiled in ([e_ciphers], [e_macs]), and for which of that an implementation is available on
    this machine or configured (cipher_conf[i] and mac_conf[i] are not NULL) *)
Record env := mk_env {
  e_ciphers : list (cipher_info * bool);
  e_macs : list (bytes * bool)
}.

(** [fastd_cipher_info_get_by_name], ciphers.c.in L83-96 *)
Fixpoint cipher_get (l : list (cipher_info * bool)) (name : bytes) : option cipher_info :=
  match l with
  | [] => None
  | (i, have) :: r => if negb (bytes_eqb (ci_name i) name) then cipher_get r name else if have then Some i else None
  end.
(** [fastd_mac_info_get_by_name], macs.c.in L83-96 *)
Fixpoint mac_get (l : list (bytes * bool)) (name : bytes) : option bytes :=
  match l with
  | [] => None
  | (i, have) :: r => if negb (bytes_eqb i name) then mac_get r name else if have then Some i else None
  end.

(** methods/common.h L20 *)
Definition COMMON_NONCEBYTES : nat := 6.

(** * The providers *)
Inductive provider := CipherTest | ComposedGmac | ComposedUmac | GenericGmac | GenericPoly1305 | GenericUmac | PlainNull | NullL2tp.

(** What a method uses: the fields of each provider's [struct fastd_method] *)
Inductive method :=
| M_none                                       (* null, null@l2tp: nothing is stored *)
| M_cipher (c : cipher_info)                   (* cipher-test, generic-poly1305 *)
| M_generic (c : cipher_info) (mac : bytes)    (* generic-gmac, generic-umac *)
| M_composed (c m : cipher_info) (mac : bytes) (* composed-gmac, composed-umac *).

Definition no_method : res (option method) := Ok None.

(** methods/cipher_test/cipher_test.c L38-60 *)
Definition cipher_test (e : env) (name : bytes) : res (option method) :=
  let len := List.length name in
  if Nat.ltb len 12 then no_method else
  do b <- tail_is name (len - 12) (str "+cipher-test");
  if negb b then no_method else
  do a <- vla (len - 11);
  do a <- copy_from a 0 name (len - 12);
  do a <- put a (len - 12) [0%N];
  do cn <- cstr a;
  match cipher_get (e_ciphers e) cn with None => no_method | Some c => Ok (Some (M_cipher c)) end.

(** The common end of composed-gmac (L78-104) and composed-umac (L70-96): [a] is cipher_name *)
Definition composed_end (e : env) (mac : bytes) (a : cells) : res (option method) :=
  do p <- chr 43 a 0;
  match p with
  | None => no_method
  | Some i =>
      do a <- put a i [0%N];
      do cn <- cstr a;
      match cipher_get (e_ciphers e) cn with
      | None => no_method
      | Some c =>
          if negb (Nat.eqb (ci_iv c) 0) && Nat.leb (ci_iv c) COMMON_NONCEBYTES then no_method else
          do mn <- cstr (skipn (i + 1) a);
          match cipher_get (e_ciphers e) mn with
          | None => no_method
          | Some m => if Nat.leb (ci_iv m) COMMON_NONCEBYTES then no_method else Ok (Some (M_composed c m mac))
          end
      end
  end.

(** methods/composed_gmac/composed_gmac.c L55-104. strncpy(cipher_name + len - 4, "ctr", 4) writes three bytes and a zero. *)
Definition composed_gmac (e : env) (name : bytes) : res (option method) :=
  match mac_get (e_macs e) (str "ghash") with
  | None => no_method
  | Some mac =>
      let len := List.length name in
      do a <- vla len;
      do minus <- (if Nat.leb 5 len then tail_is name (len - 5) (str "-gmac") else Ok false);
      if minus then
        do a <- copy_from a 0 name (len - 4);
        do a <- put a (len - 4) (str "ctr" ++ [0%N]);
        composed_end e mac a
      else
        do plus <- (if Nat.leb 5 len then tail_is name (len - 5) (str "+gmac") else Ok false);
        if plus then
          do ctr <- (if Nat.leb 9 len then tail_is name (len - 9) (str "-ctr+gmac") else Ok false);
          if ctr then no_method else
          do a <- copy_from a 0 name (len - 5);
          do a <- put a (len - 5) [0%N];
          composed_end e mac a
        else no_method
  end.

(** methods/composed_umac/composed_umac.c L53-96 *)
Definition composed_umac (e : env) (name : bytes) : res (option method) :=
  match mac_get (e_macs e) (str "uhash") with
  | None => no_method
  | Some mac =>
      let len := List.length name in
      do a <- vla len;
      do plus <- (if Nat.leb 5 len then tail_is name (len - 5) (str "+umac") else Ok false);
      if plus then
        do a <- copy_from a 0 name (len - 5);
        do a <- put a (len - 5) [0%N];
        composed_end e mac a
      else no_method
  end.

(** The common end of generic-gmac (L66-77) and generic-umac (L59-70) *)
Definition generic_end (e : env) (mac : bytes) (a : cells) : res (option method) :=
  do cn <- cstr a;
  match cipher_get (e_ciphers e) cn with
  | None => no_method
  | Some c => if Nat.leb (ci_iv c) COMMON_NONCEBYTES then no_method else Ok (Some (M_generic c mac))
  end.

(** methods/generic_gmac/generic_gmac.c L43-77 *)
Definition generic_gmac (e : env) (name : bytes) : res (option method) :=
  match mac_get (e_macs e) (str "ghash") with
  | None => no_method
  | Some mac =>
      let len := List.length name in
      do a <- vla (len + 1);
      do gcm <- (if Nat.leb 4 len then tail_is name (len - 4) (str "-gcm") else Ok false);
      if gcm then
        do a <- copy_from a 0 name (len - 3);
        do a <- put a (len - 3) (str "ctr" ++ [0%N]);
        generic_end e mac a
      else
        do plus <- (if Nat.leb 5 len then tail_is name (len - 5) (str "+gmac") else Ok false);
        if plus then
          do ctr <- (if Nat.leb 9 len then tail_is name (len - 9) (str "-ctr+gmac") else Ok false);
          if ctr then no_method else
          do a <- copy_from a 0 name (len - 5);
          do a <- put a (len - 5) [0%N];
          generic_end e mac a
        else no_method
  end.

(** methods/generic_poly1305/generic_poly1305.c L51-76 *)
Definition generic_poly1305 (e : env) (name : bytes) : res (option method) :=
  let len := List.length name in
  if Nat.ltb len 9 then no_method else
  do b <- tail_is name (len - 9) (str "+poly1305");
  if negb b then no_method else
  do a <- vla (len - 8);
  do a <- copy_from a 0 name (len - 9);
  do a <- put a (len - 9) [0%N];
  do cn <- cstr a;
  match cipher_get (e_ciphers e) cn with
  | None => no_method
  | Some c => if Nat.leb (ci_iv c) COMMON_NONCEBYTES then no_method else Ok (Some (M_cipher c))
  end.

(** methods/generic_umac/generic_umac.c L42-70 *)
Definition generic_umac (e : env) (name : bytes) : res (option method) :=
  match mac_get (e_macs e) (str "uhash") with
  | None => no_method
  | Some mac =>
      let len := List.length name in
      do a <- vla (len + 1);
      do plus <- (if Nat.leb 5 len then tail_is name (len - 5) (str "+umac") else Ok false);
      if plus then
        do a <- copy_from a 0 name (len - 5);
        do a <- put a (len - 5) [0%N];
        generic_end e mac a
      else no_method
  end.

(** methods/null/null.c L25-27, methods/null-l2tp/null-l2tp.c L35-37 *)
Definition plain (lit name : bytes) : res (option method) :=
  Ok (if bytes_eqb name lit then Some M_none else None).

Definition create (p : provider) : env -> bytes -> res (option method) :=
  match p with
  | CipherTest => cipher_test
  | ComposedGmac => composed_gmac
  | ComposedUmac => composed_umac
  | GenericGmac => generic_gmac
  | GenericPoly1305 => generic_poly1305
  | GenericUmac => generic_umac
  | PlainNull => fun _ => plain (str "null")
  | NullL2tp => fun _ => plain (str "null@l2tp")
  end.

(** methods/meson.build L3-10: the order of the providers; each one can be left out *)
Definition all_providers : list provider :=
  [CipherTest; ComposedGmac; ComposedUmac; GenericGmac; GenericPoly1305; GenericUmac; PlainNull; NullL2tp].

(** [fastd_method_create_by_name], methods.c.in L25-35 *)
Fixpoint create_by_name (e : env) (ps : list provider) (name : bytes) : res (option (provider * method)) :=
  match ps with
  | [] => Ok None
  | p :: r =>
      do m <- create p e name;
      match m with Some m => Ok (Some (p, m)) | None => create_by_name e r name end
  end.

(** * The configured methods *)

(** A peer group: its method names in the order of the file and its children *)
Inductive group := Group (methods : list bytes) (children : list group).
Definition g_methods (g : group) : list bytes := let 'Group l _ := g in l.

Definition contains (l : list bytes) (s : bytes) : bool := existsb (fun x => bytes_eqb x s) l.

(** [fastd_config_method], config.c L70-81 *)
Definition config_method (l : list bytes) (name : bytes) : list bytes := if contains l name then l else l ++ [name].

(** [collect_methods], config.c L492-505: [conf.method_list] and the number of its elements.
 *)
Fixpoint collect (g : group) (acc : list bytes * nat) : list bytes * nat :=
  let 'Group ms ch := g in
  fold_left (fun acc c => collect c acc) ch
    (fold_left (fun '(l, n) m => if contains l m then (l, n) else (m :: l, S n)) ms acc).

(** [configure_methods], config.c L509-524: the array of [n + 1] entries; [None] is an entry whose name is
    NULL.  An unsupported method is a fatal error ([exit_error]). *)
Definition info := (bytes * provider * method)%type.
Fixpoint fill (e : env) (ps : list provider) (names : list bytes) (n : nat) : res (list (option info)) :=
  match names, n with
  | [], _ => Ok (repeat None n)
  | _ :: _, O => UB
  | name :: r, S n' =>
      do m <- create_by_name e ps name;
      match m with
      | None => Fatal
      | Some (p, x) => do t <- fill e ps r n'; Ok (Some (name, p, x) :: t)
      end
  end.
Definition configure_methods (e : env) (ps : list provider) (root : group) : res (list (option info)) :=
  let '(l, n) := collect root ([], O) in fill e ps l (n + 1).

(** [fastd_config_check], config.c L566-578, as far as methods are concerned *)
Definition config_check (e : env) (ps : list provider) (root : group) : res (group * list (option info)) :=
  let root := match root with Group [] ch => Group (config_method [] (str "null")) ch | _ => root end in
  do t <- configure_methods e ps root; Ok (root, t).

(** [fastd_method_get_by_name], method.h L74-82: reading beyond the array is undefined *)
Fixpoint get_by_name (t : list (option info)) (name : bytes) : res (option info) :=
  match t with
  | [] => UB
  | None :: _ => Ok None
  | Some ((n, p, x) as i) :: r => if bytes_eqb n name then Ok (Some i) else get_by_name r name
  end.
