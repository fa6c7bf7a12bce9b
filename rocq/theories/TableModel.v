(** The hash table from addresses to peers, peer_hashtable.c, together with the peer
    vector [ctx.peers] reduced to the fields the table depends on.  A pointer to a
    peer is its id; dereferencing the pointer to a peer that does not exist
    anymore is undefined behaviour. *)
From Verif Require Import Base BufferModel MethodModel AddrModel.
Local Open Scope N_scope.

Record table := mk_table {
  t_peers : list (N * saddr);  (* ctx.peers: id and current address *)
  t_buckets : list (list N);   (* ctx.peer_addr_ht, its length is ctx.peer_addr_ht_size *)
  t_seed : N;                  (* ctx.peer_addr_ht_seed *)
  t_used : nat                 (* ctx.peer_addr_ht_used *)
}.

(** the address of a peer *)
Definition deref (w : table) (pid : N) : res saddr :=
  match find (fun x => fst x =? pid) (t_peers w) with Some x => Ok (snd x) | None => UB end.
Definition set_addr (pid : N) (a : saddr) (w : table) : table :=
  mk_table (map (fun x => if fst x =? pid then (pid, a) else x) (t_peers w)) (t_buckets w) (t_seed w) (t_used w).

(** [sa_family != 0]; AF_UNSPEC is 0 *)
Definition has_address (a : saddr) : bool := match a with AUnspec => false | AOther f => negb (f =? 0) | _ => true end.

(** [fastd_peer_hashtable_init], L17-28; [seed] are the random bytes *)
Definition table_init (seed : N) : table := mk_table [] (repeat [] 8) seed 0.

(** [peer_address_bucket], L53-59 *)
Definition bucket (w : table) (a : saddr) : res nat :=
  do h <- address_hash (t_seed w) a;
  match t_buckets w with
  | [] => UB (* division by zero *)
  | _ => Ok (N.to_nat (hash_final h mod N.of_nat (length (t_buckets w))))
  end.

Fixpoint upd_nth {A} (n : nat) (f : A -> A) (l : list A) : list A :=
  match l, n with
  | [], _ => []
  | x :: r, O => f x :: r
  | x :: r, S n => x :: upd_nth n f r
  end.

Definition set_buckets (b : list (list N)) (w : table) : table := mk_table (t_peers w) b (t_seed w) (t_used w).

(** [fastd_peer_hashtable_insert], L66-79, with the function to grow the table as
    a parameter *)
Definition insert_with (grow : table -> res table) (pid : N) (w : table) : res table :=
  do a <- deref w pid;
  if negb (has_address a) then Ok w
  else
    let w := mk_table (t_peers w) (t_buckets w) (t_seed w) (S (t_used w)) in
    if Nat.ltb (2 * length (t_buckets w)) (t_used w) then grow w
    else
      do b <- bucket w a;
      Ok (set_buckets (upd_nth b (fun l => l ++ [pid]) (t_buckets w)) w).

Fixpoint foldM {A B} (f : A -> B -> res B) (l : list A) (b : B) : res B :=
  match l with
  | [] => Ok b
  | x :: r => do b <- f x b; foldM f r b
  end.

(** [resize_hashtable], L37-50.  If an insertion into the new table made it grow again,
    the code would recurse while iterating; this is made undefined here and shown
    never to happen. *)
Definition resize (seed : N) (w : table) : res table :=
  foldM (insert_with (fun _ => UB)) (map fst (t_peers w))
    (mk_table (t_peers w) (repeat [] (2 * length (t_buckets w))) seed 0).
Definition insert (seed : N) : N -> table -> res table := insert_with (resize seed).

(** [VECTOR_DELETE] of the first occurrence *)
Fixpoint delete_first (pid : N) (l : list N) : list N :=
  match l with
  | [] => []
  | x :: r => if x =? pid then r else x :: delete_first pid r
  end.

(** [fastd_peer_hashtable_remove], L86-101.  The counter would wrap around at zero;
    made undefined here. *)
Definition remove (pid : N) (w : table) : res table :=
  do a <- deref w pid;
  if negb (has_address a) then Ok w
  else
    do b <- bucket w a;
    let w := set_buckets (upd_nth b (delete_first pid) (t_buckets w)) w in
    match t_used w with
    | O => UB
    | S u => Ok (mk_table (t_peers w) (t_buckets w) (t_seed w) u)
    end.

(** [fastd_peer_hashtable_lookup], L104-116 *)
Fixpoint scan (w : table) (a : saddr) (l : list N) : res (option N) :=
  match l with
  | [] => Ok None
  | pid :: r => do a' <- deref w pid; if address_equal a' a then Ok (Some pid) else scan w a r
  end.
Definition lookup (w : table) (a : saddr) : res (option N) :=
  do b <- bucket w a; scan w a (nth b (t_buckets w) []).

(** What peer.c does with the table: adding a peer (L778, with an unspecified
    address), [fastd_peer_claim_address] (L636-638), [reset_peer] and
    [reset_peer_address] (L315-319, L551-552), [fastd_peer_delete] (L662-665, L471-476) *)
Inductive top : Set :=
| TNew (pid : N)
| TClaim (pid : N) (a : saddr) (seed : N)
| TReset (pid : N)
| TDelete (pid : N).

Definition has (w : table) (pid : N) : bool := existsb (fun x => fst x =? pid) (t_peers w).
Definition tstep (o : top) (w : table) : res table :=
  match o with
  | TNew pid => if has w pid then UB else Ok (mk_table (t_peers w ++ [(pid, AUnspec)]) (t_buckets w) (t_seed w) (t_used w))
  | TClaim pid a seed => do w <- remove pid w; insert seed pid (set_addr pid a w)
  | TReset pid => do w <- remove pid w; Ok (set_addr pid AUnspec w)
  | TDelete pid =>
      do w <- remove pid w;
      Ok (mk_table (filter (fun x => negb (fst x =? pid)) (t_peers w)) (t_buckets w) (t_seed w) (t_used w))
  end.
Definition trun (ops : list top) (w : table) : res table := foldM tstep ops w.
