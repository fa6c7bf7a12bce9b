(** C47: socket addresses *)
From Verif Require Import Base BufferModel MethodModel AddrModel AddrSpec AddrProofs.
Local Open Scope N_scope.

(** Widening loses nothing, and narrowing only the flow label and the scope, which mean
    nothing for mapped addresses. *)
Theorem C47_widen_lossless : forall ip port, length ip = 4%nat -> wf_bytes ip ->
  address_simplify (address_widen (AInet ip port)) = AInet ip port.
Proof. exact simplify_widen. Qed.
Print Assumptions C47_widen_lossless.

Theorem C47_simplify_lossless : forall ip port flow scope, swf (AInet6 ip port flow scope) -> is_v4mapped ip = true ->
  address_widen (address_simplify (AInet6 ip port flow scope)) = AInet6 ip port (repeat 0 4) (repeat 0 4) /\
  address_equal (address_widen (address_simplify (AInet6 ip port flow scope))) (AInet6 ip port flow scope) = true.
Proof. exact widen_simplify. Qed.
Print Assumptions C47_simplify_lossless.

(** Both keep what is denoted. *)
Theorem C47_simplify_denotes : forall a, swf a -> denotes (address_simplify a) = denotes a.
Proof. exact simplify_denotes. Qed.
Print Assumptions C47_simplify_denotes.
Theorem C47_widen_denotes : forall a, swf a -> denotes (address_widen a) = denotes a.
Proof. exact widen_denotes. Qed.
Print Assumptions C47_widen_denotes.

(** Normalised addresses are equal exactly if they denote the same endpoint. *)
Theorem C47_equal_iff_same : forall a b, swf a -> swf b ->
  address_equal (address_simplify a) (address_simplify b) = true <-> denotes a = denotes b.
Proof. exact equal_denotes. Qed.
Print Assumptions C47_equal_iff_same.

(** Equal addresses have the same hash, for every seed (also if not normalised), and
    every IPv4 or IPv6 address has one. *)
Theorem C47_equal_hash : forall a b h, address_equal a b = true -> address_hash h a = address_hash h b.
Proof. exact equal_hash. Qed.
Print Assumptions C47_equal_hash.
Theorem C47_hash_defined : forall h a, (exists x, address_hash h a = Ok x) <-> match a with AInet _ _ | AInet6 _ _ _ _ => True | _ => False end.
Proof. exact hash_defined. Qed.
Print Assumptions C47_hash_defined.

Theorem C47_equivalence : (forall a, address_equal a a = true) /\ (forall a b, address_equal a b = address_equal b a) /\
  (forall a b c, address_equal a b = true -> address_equal b c = true -> address_equal a c = true).
Proof. exact (conj equal_refl (conj equal_sym equal_trans)). Qed.
Print Assumptions C47_equivalence.

(** 10.0.0.1:10000, its mapped form with a scope, and two link-local addresses *)
Definition ex4 : saddr := AInet [10; 0; 0; 1] [39; 16].
Definition ex6 : saddr := AInet6 [0; 0; 0; 0; 0; 0; 0; 0; 0; 0; 255; 255; 10; 0; 0; 1] [39; 16] [0; 0; 0; 0] [7; 0; 0; 0].
Definition exl (scope : N) : saddr := AInet6 [254; 0x80; 0; 0; 0; 0; 0; 0; 0; 0; 0; 0; 0; 0; 0; 1] [39; 16] [0; 0; 0; 0] [scope; 0; 0; 0].
Example C47_examples :
  swf ex4 /\ swf ex6 /\ swf (exl 1) /\ address_equal ex4 ex6 = false /\
  address_equal (address_simplify ex4) (address_simplify ex6) = true /\ denotes ex4 = denotes ex6 /\
  address_equal (address_simplify (exl 1)) (address_simplify (exl 2)) = false /\ denotes (exl 1) <> denotes (exl 2) /\
  address_hash 5 (address_simplify ex6) = address_hash 5 ex4 /\ address_hash 5 (exl 1) <> address_hash 5 (exl 2).
Proof. repeat split; try (vm_compute; congruence); repeat constructor. Qed.
