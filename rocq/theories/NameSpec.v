(** What a method name stands for, written from doc/source/manual/methods.rst and the comments of the providers
    ("<cipher>+<cipher>+gmac" and so on), without looking at how names are taken apart. *)
From Verif Require Import Base BufferModel NameModel.
From Coq Require Import String.
Local Open Scope string_scope.

Inductive cipher := Null | Aes128Ctr | Salsa20 | Salsa2012.

(** the name of a cipher and the length of its initialisation vector *)
Definition cname (c : cipher) : string :=
  match c with Null => "null" | Aes128Ctr => "aes128-ctr" | Salsa20 => "salsa20" | Salsa2012 => "salsa2012" end.
Definition civ (c : cipher) : nat := match c with Null => 0 | Aes128Ctr => 16 | Salsa20 => 8 | Salsa2012 => 8 end.
Definition ci (c : cipher) : cipher_info := mk_cipher (str (cname c)) (civ c).

(** A cipher in counter mode together with GHASH has names of its own: AES-GCM and AES-GMAC. *)
Definition gcm_name (c : cipher) : string := match c with Aes128Ctr => "aes128-gcm" | _ => cname c ++ "+gmac" end.
Definition gmac_name (c : cipher) : string := match c with Aes128Ctr => "aes128-gmac" | _ => cname c ++ "+gmac" end.

Inductive denotes : string -> provider -> method -> Prop :=
| D_null : denotes "null" PlainNull M_none
| D_l2tp : denotes "null@l2tp" NullL2tp M_none
| D_test : forall c, denotes (cname c ++ "+cipher-test") CipherTest (M_cipher (ci c))
| D_poly : forall c, c <> Null -> denotes (cname c ++ "+poly1305") GenericPoly1305 (M_cipher (ci c))
| D_gmac : forall c, c <> Null -> denotes (gcm_name c) GenericGmac (M_generic (ci c) (str "ghash"))
| D_umac : forall c, c <> Null -> denotes (cname c ++ "+umac") GenericUmac (M_generic (ci c) (str "uhash"))
| D_cgmac : forall c t, t <> Null -> denotes (cname c ++ "+" ++ gmac_name t) ComposedGmac (M_composed (ci c) (ci t) (str "ghash"))
| D_cumac : forall c t, t <> Null -> denotes (cname c ++ "+" ++ cname t ++ "+umac") ComposedUmac (M_composed (ci c) (ci t) (str "uhash")).

(** A possible build and machine: some of the ciphers and MACs, each available or not *)
Definition env_ok (e : env) : Prop :=
  NoDup (map fst (e_ciphers e)) /\ incl (map fst (e_ciphers e)) all_ciphers /\
  NoDup (map fst (e_macs e)) /\ incl (map fst (e_macs e)) all_macs.

(** Everything a method uses is available. *)
Definition supports (e : env) (m : method) : Prop :=
  let has c := In (c, true) (e_ciphers e) in
  let has_mac x := In (x, true) (e_macs e) in
  match m with
  | M_none => True
  | M_cipher c => has c
  | M_generic c x => has c /\ has_mac x
  | M_composed c t x => has c /\ has t /\ has_mac x
  end.

(** A C string *)
Definition c_string (s : bytes) : Prop := ~ In 0%N s.

(** the groups of a tree *)
Inductive in_tree : group -> group -> Prop :=
| T_root : forall g, in_tree g g
| T_child : forall ms ch c g, In c ch -> in_tree c g -> in_tree (Group ms ch) g.
(** names used anywhere in the tree *)
Definition used (root : group) (name : bytes) : Prop := exists g, in_tree root g /\ In name (g_methods g).
