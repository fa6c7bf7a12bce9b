(** The addresses of the peers after a sequence of operations, without any table *)
From Verif Require Import Base AddrModel TableModel.
Local Open Scope N_scope.

Definition addr_map := N -> option saddr.
Definition put (m : addr_map) (pid : N) (v : option saddr) : addr_map := fun q => if q =? pid then v else m q.

(** the peer exists or is new as it should be, and only IP addresses (or none) are assigned *)
Definition legal (m : addr_map) (o : top) : Prop :=
  match o with
  | TNew pid => m pid = None
  | TClaim pid a _ => m pid <> None /\ match a with AOther _ => False | _ => True end
  | TReset pid => m pid <> None
  | TDelete pid => m pid <> None
  end.
Definition effect (m : addr_map) (o : top) : addr_map :=
  match o with
  | TNew pid => put m pid (Some AUnspec)
  | TClaim pid a _ => put m pid (Some a)
  | TReset pid => put m pid (Some AUnspec)
  | TDelete pid => put m pid None
  end.
Fixpoint all_legal (m : addr_map) (ops : list top) : Prop :=
  match ops with
  | [] => True
  | o :: r => legal m o /\ all_legal (effect m o) r
  end.
Definition addresses (ops : list top) : addr_map := fold_left effect ops (fun _ => None).
