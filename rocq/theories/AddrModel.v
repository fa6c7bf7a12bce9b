(** Socket addresses (union fastd_peer_address, fastd.h L133-137), their comparison,
    normalisation and hashes.  Fields are the bytes in memory (network byte order
    for addresses and ports; the order does not matter for [sin6_scope_id], whose bytes are
    only compared and hashed). *)
From Verif Require Import Base BufferModel MethodModel.
Local Open Scope N_scope.

Inductive saddr : Set :=
| AUnspec
| AInet (ip port : bytes)
| AInet6 (ip port flow scope : bytes)
| AOther (family : N).

(** The sizes of the fields *)
Definition swf (a : saddr) : Prop :=
  match a with
  | AInet ip port => length ip = 4%nat /\ wf_bytes ip /\ length port = 2%nat /\ wf_bytes port
  | AInet6 ip port flow scope => length ip = 16%nat /\ wf_bytes ip /\ length port = 2%nat /\ wf_bytes port /\
      length flow = 4%nat /\ wf_bytes flow /\ length scope = 4%nat /\ wf_bytes scope
  | _ => True
  end.

(** IN6_IS_ADDR_LINKLOCAL and IN6_IS_ADDR_V4MAPPED (netinet/in.h): on 32-bit words in
    network byte order, (word 0 & 0xffc00000) = 0xfe800000 and word 0 = word 1 = 0,
    word 2 = 0xffff *)
Definition is_linklocal (ip : bytes) : bool := N.land (be_val (firstn 4 ip)) 0xffc00000 =? 0xfe800000.
Definition is_v4mapped (ip : bytes) : bool :=
  (be_val (firstn 4 ip) =? 0) && (be_val (firstn 4 (skipn 4 ip)) =? 0) && (be_val (firstn 4 (skipn 8 ip)) =? 0xffff).

(** [fastd_peer_address_equal], peer.c L489-517 *)
Definition address_equal (a b : saddr) : bool :=
  match a, b with
  | AUnspec, AUnspec => true
  | AInet ip1 port1, AInet ip2 port2 => if negb (bytes_eqb ip1 ip2) then false else bytes_eqb port1 port2
  | AInet6 ip1 port1 _ scope1, AInet6 ip2 port2 _ scope2 =>
      if negb (bytes_eqb ip1 ip2) then false
      else if negb (bytes_eqb port1 port2) then false
      else if is_linklocal ip1 then bytes_eqb scope1 scope2
      else true
  | AOther f1, AOther f2 => f1 =? f2
  | _, _ => false
  end.

(** [fastd_peer_address_simplify], peer.c L520-529 *)
Definition address_simplify (a : saddr) : saddr :=
  match a with
  | AInet6 ip port _ _ => if is_v4mapped ip then AInet (skipn 12 ip) port else a
  | _ => a
  end.

(** [fastd_peer_address_widen], peer.c L532-543 *)
Definition address_widen (a : saddr) : saddr :=
  match a with
  | AInet ip port => AInet6 (repeat 0 10 ++ [0xff; 0xff] ++ ip) port (repeat 0 4) (repeat 0 4)
  | _ => a
  end.

(** [fastd_hash] and [fastd_hash_final], hash.h L22-36 *)
Definition hash_byte (h b : N) : N :=
  let h := (h + b) mod 2 ^ 32 in
  let h := (h + N.shiftl h 10 mod 2 ^ 32) mod 2 ^ 32 in
  N.lxor h (N.shiftr h 6).
Definition hash_bytes (h : N) (data : bytes) : N := fold_left hash_byte data h.
Definition hash_final (h : N) : N :=
  let h := (h + N.shiftl h 3 mod 2 ^ 32) mod 2 ^ 32 in
  let h := N.lxor h (N.shiftr h 11) in
  (h + N.shiftl h 15 mod 2 ^ 32) mod 2 ^ 32.

(** [fastd_peer_address_hash], peer_hashtable.h L21-39 *)
Definition address_hash (h : N) (a : saddr) : res N :=
  match a with
  | AInet ip port => Ok (hash_bytes (hash_bytes h ip) port)
  | AInet6 ip port _ scope =>
      let h := hash_bytes (hash_bytes h ip) port in
      Ok (if is_linklocal ip then hash_bytes h scope else h)
  | _ => Bug
  end.
