(** What is demanded of the users of the buffer pool *)
From Verif Require Import Base BufferModel PoolModel.

(** The free buffers, following the links from the first one; None if there are more than [n] *)
Fixpoint free_list (n : nat) (cells : list cell) (p : option nat) : option (list nat) :=
  match p with
  | None => Some []
  | Some b =>
      match n, nth_error cells b with
      | S n, Some (mk_cell _ (Link q)) => option_map (cons b) (free_list n cells q)
      | _, _ => None
      end
  end.
(** All [n] buffers are free *)
Definition all_free (n : nat) (s : pool) : Prop :=
  length (p_cells s) = n /\
  exists l, free_list n (p_cells s) (p_head s) = Some l /\ NoDup l /\ forall b, In b l <-> b < n.
