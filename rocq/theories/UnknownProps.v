(** C29: handshakes sent to unknown addresses after payload packets.  A result of true
    means that no handshake is sent. *)
From Verif Require Import Base BufferModel AddrModel UnknownModel UnknownSpec UnknownProofs.
Local Open Scope Z_scope.

Theorem C29_defined : forall t seed l, ordered t l ->
  exists bs u, backoffs l (unknown_init t seed) = Ok (bs, u) /\ length bs = length l.
Proof. exact reach_defined. Qed.
Print Assumptions C29_defined.

(** No handshake is sent exactly if a record of the address that has not expired is kept
    anywhere in the tables. *)
Theorem C29_suppressed_iff_recorded : forall t seed l bs u now r a,
  ordered t l -> backoffs l (unknown_init t seed) = Ok (bs, u) -> last_time t l <= now -> ip_address a ->
  exists b u', backoff_unknown now r a u = Ok (b, u') /\
    (b = true <-> exists k j, live u now (k, j) /\ address_equal a (e_addr (u_tab u k j)) = true).
Proof. exact reach_backoff. Qed.
Print Assumptions C29_suppressed_iff_recorded.

(** A place is occupied only by a record for one of the sixteen current slices: it is a
    current place of the recorded address. *)
Theorem C29_current_cycle : forall t seed l bs u now k j,
  ordered t l -> backoffs l (unknown_init t seed) = Ok (bs, u) -> last_time t l <= now ->
  live u now (k, j) -> exists i, (i < 16)%nat /\ hash_entry seed (now / 1000) i (e_addr (u_tab u k j)) = Ok (k, j).
Proof. exact reach_cycle. Qed.
Print Assumptions C29_current_cycle.

(** If the packet [x] makes the daemon send a handshake, and the first free place for its address
    is the [i]'th, then no packet [y] from that address leads to another one for
    15 - [i] seconds, unless all places for the sender of some packet in between are
    occupied. *)
Theorem C29_no_second_handshake : forall t seed pre x mid y bs1 u1 ux i,
  ordered t (pre ++ x :: mid ++ [y]) ->
  backoffs pre (unknown_init t seed) = Ok (bs1, u1) ->
  backoffs (pre ++ [x]) (unknown_init t seed) = Ok (bs1 ++ [false], ux) ->
  first_free u1 x i ->
  v_now y < v_now x + 15000 - 1000 * Z.of_nat i ->
  address_equal (v_addr y) (v_addr x) = true ->
  (forall m1 v m2 bs' u', mid = m1 ++ v :: m2 ->
     backoffs (pre ++ x :: m1) (unknown_init t seed) = Ok (bs', u') -> ~ crowded u' v) ->
  exists bs2 u2, backoffs (pre ++ x :: mid ++ [y]) (unknown_init t seed) = Ok (bs1 ++ false :: bs2 ++ [true], u2).
Proof. exact no_second. Qed.
Print Assumptions C29_no_second_handshake.

(** A sender, another one, and the first again after 14.999 and 15 seconds *)
Definition ex_x : arrival := mk_arrival 100500 (AInet [10; 0; 0; 1]%N [39; 16]%N) 0.
Definition ex_m : arrival := mk_arrival 103000 (AInet [10; 0; 0; 2]%N [39; 16]%N) 0.
Definition ex_y (t : Z) : arrival := mk_arrival t (AInet [10; 0; 0; 1]%N [39; 16]%N) 0.
Definition ex_u : unknown := unknown_init 99000 12345.
Definition results (l : list arrival) : list bool := match backoffs l ex_u with Ok x => fst x | _ => [] end.
Example C29_hypotheses_met :
  ordered 99000 ([] ++ ex_x :: [ex_m] ++ [ex_y 115499]) /\ first_free ex_u ex_x 0 /\ v_now (ex_y 115499) < v_now ex_x + 15000 - 1000 * 0 /\
  results [ex_x; ex_m; ex_y 115499; ex_y 115500] = [false; false; true; false] /\
  forall bs u, backoffs [ex_x] ex_u = Ok (bs, u) -> ~ crowded u ex_m.
Proof.
  split; [cbn; lia|]. split; [split; [lia|]; split; [|intros m; lia]|].
  - intros ([k j] & E & L). unfold live in L. cbn in L. lia.
  - split; [cbn; lia|]. split; [vm_compute; reflexivity|]. intros bs u E C. destruct (C 0%nat) as ([k j] & E1 & L); [lia|].
    vm_compute in E. injection E as <- <-. vm_compute in E1. injection E1 as <- <-. vm_compute in L. discriminate.
Qed.

(** The period is shorter if the first place is occupied by another address. *)
Definition ex_c : arrival := mk_arrival 100400 (AInet [10; 0; 0; 26]%N [39; 16]%N) 0.
Example C29_fifteen_seconds_refuted :
  ordered 99000 [ex_c; ex_x; ex_y 114499; ex_y 114500] /\ results [ex_c; ex_x; ex_y 114499; ex_y 114500] = [false; false; true; false].
Proof. split; [cbn; lia | vm_compute; reflexivity]. Qed.
