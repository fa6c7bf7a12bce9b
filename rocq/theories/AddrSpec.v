(** What a socket address denotes, following RFC 4291: an IPv4 address is the same node
    as its IPv4-mapped IPv6 address; link-local addresses belong to one link. *)
From Verif Require Import Base AddrModel.
Local Open Scope N_scope.

Definition mapped_prefix : bytes := [0; 0; 0; 0; 0; 0; 0; 0; 0; 0; 255; 255].
(** fe80::/10 *)
Definition link_local (ip : bytes) : bool :=
  match ip with a :: b :: _ => (a =? 254) && (128 <=? b) && (b <? 192) | _ => false end.

Inductive endpoint : Set :=
| ENone
| EHost (ip6 port : bytes) (link : option bytes)
| EUnknown (family : N).

Definition denotes (a : saddr) : endpoint :=
  match a with
  | AUnspec => ENone
  | AInet ip port => EHost (mapped_prefix ++ ip) port None
  | AInet6 ip port _ scope => EHost ip port (if link_local ip then Some scope else None)
  | AOther f => EUnknown f
  end.
