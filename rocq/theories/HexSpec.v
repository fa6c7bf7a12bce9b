(** What it means that a text spells a byte string in hexadecimal. *)
From Verif Require Import Base.

(** the character [c] is a digit with value [v] *)
Definition digit_is (c v : N) : Prop :=
  (48 <= c <= 57 /\ v = c - 48 \/ 97 <= c <= 102 /\ v = c - 97 + 10 \/ 65 <= c <= 70 /\ v = c - 65 + 10)%N.

Inductive spells : bytes -> bytes -> Prop :=
| sp_nil : spells [] []
| sp_cons : forall a b x y s k, digit_is a x -> digit_is b y -> spells s k -> spells (a :: b :: s) ((16 * x + y)%N :: k).

Definition is_capital (c : N) : Prop := (65 <= c <= 90)%N.
Definition lower (c : N) : N := if ((65 <=? c) && (c <=? 90))%N then (c + 32)%N else c.
