(** C55: vectors behave as lists. *)
From Verif Require Import Base BufferModel VectorModel VectorSpec VectorProofs.
Local Open Scope N_scope.

(** Whatever sequence of operations is applied to a new vector, if each makes sense on the list
    (positions exist, sizes times three are below 2^64), then none is undefined, and unless the process exits the
    vector has the length of the list and reading an assigned element returns what was assigned to it.  The process exits
    only if realloc fails, an element is larger than 4 GiB or three times the length reached 2^32. *)
Theorem C55_vector_is_list : forall (A : Type) es (ops : list (bool * op A)) l,
  Forall op_small (map snd ops) -> l_steps [] (map snd ops) = Some l ->
  match steps es empty ops with
  | Ok v => v_len v = N.of_nat (length l) /\ (forall i x, nth_error l (N.to_nat i) = Some (Some x) -> index v i = Ok x)
  | Fatal => In false (map fst ops) \/ 2 ^ 32 <= es \/ 2 ^ 32 <= 3 * N.of_nat (list_max (lengths [] (map snd ops)))
  | _ => False
  end.
Proof. intros A. exact vector_list. Qed.
Print Assumptions C55_vector_is_list.

(** The memory allocated is what [allocated] says, suffices for all elements, is nothing or a power of two from 4 up, and at most
    three times the largest length the vector ever had (or 4). *)
Theorem C55_allocation : forall (A : Type) es (ops : list (bool * op A)) l v,
  Forall op_small (map snd ops) -> l_steps [] (map snd ops) = Some l -> steps es empty ops = Ok v ->
  length (v_data v) = N.to_nat (v_alloc v) /\ v_len v <= v_alloc v /\ alloc_ok (v_alloc v) /\
  v_alloc v <= N.max 4 (3 * N.of_nat (list_max (lengths [] (map snd ops)))).
Proof. intros A. exact vector_alloc. Qed.
Print Assumptions C55_allocation.

(** The loop that doubles the allocation stops: 64 rounds are enough, whatever the size. *)
Theorem C55_growing_stops : forall g k n, k < 64 -> (64 <= g)%nat -> grow (S g) (2 ^ k) n = grow 65 (2 ^ k) n.
Proof. intros g k n Hk Hg. exact (grow_more 64 g k n Hk ltac:(lia) Hg). Qed.
Print Assumptions C55_growing_stops.

(** Without the bound on sizes it is false: a new vector resized to 2^64/3 elements gets room for four of them. *)
Theorem C55_any_size_refuted : exists n v, n < 2 ^ 64 /\ resize true 1 (@empty N) n = Ok v /\ v_len v = n /\
  length (v_data v) = 4%nat /\ assign v 4 0 = UB.
Proof. exact vector_overflow. Qed.
Print Assumptions C55_any_size_refuted.

(** An example: adding, inserting at the front, deleting from the middle, growing and assigning. *)
Definition ex_ops : list (bool * op N) :=
  map (pair true) [OAdd 1; OAdd 2; OAdd 3; OInsert 9 0; OAdd 4; ODelete 2; OResize 6; OAssign 5 7; OAdd 8].
Example C55_example :
  Forall op_small (map snd ex_ops) /\
  l_steps [] (map snd ex_ops) = Some [Some 9; Some 1; Some 3; Some 4; None; Some 7; Some 8] /\
  exists v, steps 8 empty ex_ops = Ok v /\ v_alloc v = 8 /\ v_len v = 7 /\ index v 2 = Ok 3 /\ index v 6 = Ok 8 /\
            steps 8 empty [(false, OAdd 1)] = Fatal.
Proof.
  split; [repeat constructor|]. split; [reflexivity|]. eexists.
  split; [vm_compute; reflexivity|]. repeat split.
Qed.
