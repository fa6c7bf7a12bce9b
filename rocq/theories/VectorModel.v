(** Dynamically sized arrays.  Source: src/vector.c, src/vector.h, fastd_realloc_array in src/alloc.h.

    The memory of a vector is a list with one cell per allocated element; [None] is a cell nothing was written to.
    All accesses are multiples of the size of an element, so memory is not divided further.  Accesses
    outside the allocated cells are undefined.  size_t has 64 bits. *)
From Verif Require Import Base BufferModel.
Local Open Scope N_scope.

Definition W : N := 2 ^ 64.

Section Vector.
Context {A : Type}.

Record vec := mk_vec {
  v_alloc : N;             (* desc.allocated *)
  v_len : N;               (* desc.length *)
  v_data : list (option A) (* data[]: as many cells as were allocated last *)
}.

(** vector.c L21 *)
Definition MIN_VECTOR_ALLOC : N := 4.

(** The loop of vector.c L41-47; [None] is exit_errno.  64 doublings make every number zero. *)
Fixpoint grow (fuel : nat) (alloc n : N) : option N :=
  match fuel with
  | O => None
  | S f => if n <=? alloc then Some alloc else let a := (alloc * 2) mod W in if a =? 0 then None else grow f a n
  end.

(** [fastd_mul_check] and [fastd_realloc_array], alloc.h L33-46, L107-109; [ok] says whether realloc succeeds.
    The old contents are kept as far as they fit, new cells are not initialised. *)
Definition realloc (ok : bool) (elemsize : N) (data : list (option A)) (members : N) : res (list (option A)) :=
  if (2 ^ 32 - 1 <? members) || (2 ^ 32 - 1 <? elemsize) || (W - 1 <? members * elemsize) || negb ok then Fatal
  else Ok (firstn (N.to_nat members) data ++ repeat None (N.to_nat members - List.length data)).

(** [_fastd_vector_resize], vector.c L31-52 *)
Definition resize (ok : bool) (elemsize : N) (v : vec) (n : N) : res vec :=
  let '(alloc, want) := if v_alloc v =? 0 then (MIN_VECTOR_ALLOC, (n * 3) mod W / 2) else (v_alloc v, n) in
  match grow 65 alloc want with
  | None => Fatal
  | Some alloc =>
      if alloc =? v_alloc v then Ok (mk_vec alloc n (v_data v))
      else do d <- realloc ok elemsize (v_data v) alloc; Ok (mk_vec alloc n d)
  end.

(** memmove of [n] cells from [src] to [dst] *)
Definition memmove (d : list (option A)) (dst src n : N) : res (list (option A)) :=
  let l := N.of_nat (List.length d) in
  if (dst + n <=? l) && (src + n <=? l)
  then Ok (firstn (N.to_nat dst) d ++ firstn (N.to_nat n) (skipn (N.to_nat src) d) ++ skipn (N.to_nat (dst + n)) d)
  else UB.
Definition store (d : list (option A)) (pos : N) (x : A) : res (list (option A)) :=
  if pos <? N.of_nat (List.length d) then Ok (firstn (N.to_nat pos) d ++ Some x :: skipn (S (N.to_nat pos)) d) else UB.

(** size_t subtraction *)
Definition sub (a b : N) : N := (a + W - b) mod W.

(** [_fastd_vector_insert], vector.c L59-66 *)
Definition insert (ok : bool) (elemsize : N) (v : vec) (x : A) (pos : N) : res vec :=
  do v <- resize ok elemsize v ((v_len v + 1) mod W);
  do d <- memmove (v_data v) (pos + 1) pos (sub (sub (v_len v) pos) 1);
  do d <- store d pos x;
  Ok (mk_vec (v_alloc v) (v_len v) d).

(** [_fastd_vector_delete], vector.c L73-78 *)
Definition delete (ok : bool) (elemsize : N) (v : vec) (pos : N) : res vec :=
  do d <- memmove (v_data v) pos (pos + 1) (sub (sub (v_len v) pos) 1);
  resize ok elemsize (mk_vec (v_alloc v) (v_len v) d) (sub (v_len v) 1).

(** VECTOR_ADD, vector.h L88-93 *)
Definition add (ok : bool) (elemsize : N) (v : vec) (x : A) : res vec := insert ok elemsize v x (v_len v).

(** VECTOR_INDEX, vector.h L68: reading; assignment *)
Definition index (v : vec) (i : N) : res A :=
  if i <? N.of_nat (List.length (v_data v)) then match nth (N.to_nat i) (v_data v) None with Some x => Ok x | None => UB end else UB.
Definition assign (v : vec) (i : N) (x : A) : res vec :=
  do d <- store (v_data v) i x; Ok (mk_vec (v_alloc v) (v_len v) d).

(** a vector in zero-initialised memory *)
Definition empty : vec := mk_vec 0 0 [].

Inductive op := OInsert (x : A) (pos : N) | OAdd (x : A) | ODelete (pos : N) | OResize (n : N) | OAssign (i : N) (x : A).
Definition step (elemsize : N) (v : vec) (e : bool * op) : res vec :=
  let '(ok, o) := e in
  match o with
  | OInsert x pos => insert ok elemsize v x pos
  | OAdd x => add ok elemsize v x
  | ODelete pos => delete ok elemsize v pos
  | OResize n => resize ok elemsize v n
  | OAssign i x => assign v i x
  end.
Fixpoint steps (elemsize : N) (v : vec) (l : list (bool * op)) : res vec :=
  match l with [] => Ok v | e :: r => do v <- step elemsize v e; steps elemsize v r end.
End Vector.
Arguments vec : clear implicits.
Arguments op : clear implicits.
