(** What vectors are for: lists.  [None] is an element added by resizing and not yet assigned. *)
From Verif Require Import Base VectorModel.

Section Spec.
Context {A : Type}.

(** the operations on lists, if they make sense *)
Definition l_step (l : list (option A)) (o : op A) : option (list (option A)) :=
  let n := length l in
  match o with
  | OInsert x pos => if N.to_nat pos <=? n then Some (firstn (N.to_nat pos) l ++ Some x :: skipn (N.to_nat pos) l) else None
  | OAdd x => Some (l ++ [Some x])
  | ODelete pos => if N.to_nat pos <? n then Some (firstn (N.to_nat pos) l ++ skipn (S (N.to_nat pos)) l) else None
  | OResize m => Some (firstn (N.to_nat m) l ++ repeat None (N.to_nat m - n))
  | OAssign i x => if N.to_nat i <? n then Some (firstn (N.to_nat i) l ++ Some x :: skipn (S (N.to_nat i)) l) else None
  end.
Fixpoint l_steps (l : list (option A)) (os : list (op A)) : option (list (option A)) :=
  match os with [] => Some l | o :: r => match l_step l o with Some l => l_steps l r | None => None end end.

(** [vs] holds the list [l]: it may hold anything where [l] has an unassigned element (cells
    left over from earlier elements are not cleared). *)
Definition holds (v : vec A) (l : list (option A)) : Prop :=
  N.to_nat (v_len v) = length l /\
  forall i x, nth_error l i = Some (Some x) -> nth_error (v_data v) i = Some (Some x).
End Spec.

(** an allocation: nothing yet, or a power of two from 4 up *)
Definition alloc_ok (a : N) : Prop := a = 0%N \/ exists k, (2 <= k)%N /\ a = (2 ^ k)%N.

(** the numbers of elements asked for during a sequence of operations *)
Section Lengths.
Context {A : Type}.
Fixpoint lengths (l : list (option A)) (os : list (op A)) : list nat :=
  match os with
  | [] => []
  | o :: r => match l_step l o with Some l => length l :: lengths l r | None => [] end
  end.
End Lengths.
(** resizing to [m] elements does not overflow when multiplied by three *)
Definition op_small {A : Type} (o : op A) : Prop := match o with OResize m => (m * 3 < 2 ^ 64)%N | _ => True end.
