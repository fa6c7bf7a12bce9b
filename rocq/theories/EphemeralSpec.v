(** What is claimed about the handshake secrets, in terms of the events and of what
    is in memory. *)
From Verif Require Import Base BufferModel KexModel KexSpec EphemeralModel.
Local Open Scope Z_scope.

(** The key pairs created so far, newest first. *)
Definition created (tr : list kev) : list (Z * keypair) :=
  rev (flat_map (fun e => match e with Created t k => [(t, k)] | _ => [] end) tr).

(** No key pair: zeroed memory. *)
Definition no_pair : keypair := mk_keypair zero32 zero32.

(** The ephemeral secrets in memory. *)
Definition ephemerals {K} (s : kst K) : list bytes :=
  match k_keys s with None => [] | Some (prev, cur) => [kp_secret (hk_pair prev); kp_secret (hk_pair cur)] end.

(** The time of an operation; the clock does not run backwards and is not negative. *)
Definition time_of {K} (o : kop K) : Z :=
  match o with
  | KInit t _ | KHandle t _ _ | KVerifyReturn t _ _ | KAdd t _ _ _ | KReset t _ | KDelete t _ => t
  end.
Fixpoint clock {K} (from : Z) (l : list (kop K)) : Prop :=
  match l with [] => True | o :: l' => from <= time_of o /\ clock (time_of o) l' end.

(** A handshake is sent or received. *)
Definition handshakes {K} (o : kop K) : bool := match o with KInit _ _ | KHandle _ _ _ => true | _ => false end.

(** Randomness as read from the kernel: 32 bytes. *)
Definition random_ok {K} (o : kop K) : Prop :=
  match o with KInit _ r | KHandle _ r _ => word256 r | _ => True end.

(** What may happen after the key pairs [c] were created (newest first): a new one
    at least 15 seconds after the last one; the newest one is sent for 15 seconds; it
    is used in answers for 15 seconds, after an asynchronous verification without
    limit; one of the newest two is used for 30 seconds; the keys of a session are
    those of the key exchange with it. *)
Definition allowed (K : kex) (own : keypair) (peers : N -> peerkey K) (c : list (Z * keypair)) (e : kev) : Prop :=
  match e with
  | Created t _ => match c with [] => True | (t', _) :: _ => t' + 15000 <= t end
  | Offered t k => exists t', hd_error c = Some (t', k) /\ t' <= t < t' + 15000
  | Responded t _ false k _ => exists t', hd_error c = Some (t', k) /\ t' <= t < t' + 15000
  | Responded t _ true k _ => exists t', hd_error c = Some (t', k) /\ t' <= t
  | Used t _ k _ => exists t', In (t', k) (firstn 2 c) /\ t' <= t < t' + 30000
  | Established t pid initiator k hk sigma salt =>
      (exists t', In (t', k) (firstn 2 c) /\ t' <= t < t' + 30000) /\
      make_shared K initiator own k (peers pid) hk = Some (sigma, salt)
  end.

(** All additions of a peer agree with [peers]: a peer keeps its key; numbers of
    peers are not used again (C34). *)
Definition keys_agree {K} (peers : N -> peerkey K) (o : kop K) : Prop :=
  match o with KAdd _ pid key _ => key = peers pid | _ => True end.
Definition added {K} (l : list (kop K)) : list N :=
  flat_map (fun o => match o with KAdd _ pid _ _ => [pid] | _ => [] end) l.

Definition proper {K} (peers : N -> peerkey K) (l : list (kop K)) : Prop :=
  clock 0 l /\ Forall random_ok l /\ Forall (keys_agree peers) l /\ NoDup (added l).

(** The handshake cache of a peer. *)
Definition cached {K} (s : kst K) (pid : N) : option (bytes * bytes) :=
  match find_pp K (k_peers s) pid with Some p => Some (pp_sigma p, pp_shared p) | None => None end.
