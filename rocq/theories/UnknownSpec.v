(** Terms used in the statements about handshakes to unknown addresses *)
From Verif Require Import Base BufferModel AddrModel UnknownModel.
Local Open Scope Z_scope.

(** IPv4 or IPv6 *)
Definition ip_address (a : saddr) : Prop := match a with AInet _ _ | AInet6 _ _ _ _ => True | _ => False end.

(** the record in a place has not expired *)
Definition live (u : unknown) (now : Z) (kj : N * N) : Prop := now < e_timeout (u_tab u (fst kj) (snd kj)).
(** the [i]'th place for an address at a time is occupied *)
Definition occupied (u : unknown) (v : arrival) (i : nat) : Prop :=
  exists kj, hash_entry (u_seed u) (v_now v / 1000) i (v_addr v) = Ok kj /\ live u (v_now v) kj.
(** [i] is the first place that is not *)
Definition first_free (u : unknown) (v : arrival) (i : nat) : Prop :=
  (i < 16)%nat /\ ~ occupied u v i /\ forall m, (m < i)%nat -> occupied u v m.
Definition crowded (u : unknown) (v : arrival) : Prop := forall i, (i < 16)%nat -> occupied u v i.

(** Times do not decrease, all senders are IP addresses *)
Fixpoint ordered (t : Z) (l : list arrival) : Prop :=
  match l with
  | [] => True
  | v :: r => t <= v_now v /\ ip_address (v_addr v) /\ ordered (v_now v) r
  end.
(** the time of the last one *)
Fixpoint last_time (t : Z) (l : list arrival) : Z := match l with [] => t | v :: r => last_time (v_now v) r end.
