(** Property theorems C81: handshake secrets in memory. *)
From Verif Require Import Base BufferModel MethodModel MethodProofs KexModel KexSpec KexProofs EphemeralModel EphemeralSpec EphemeralProofs EphemeralProofs2.
Local Open Scope Z_scope.

(** ** C81  How long handshake secrets are used and kept *)

(** No sequence of operations goes wrong. *)
Theorem C81_safe :
  forall K own peers l, proper peers l -> exists s tr, krun K own (kstart K) l = Ok (s, tr).
Proof. exact eph_safe. Qed.
Print Assumptions C81_safe.

(** Everything that happens is allowed given the key pairs created before. *)
Theorem C81_use :
  forall K own peers l s tr, proper peers l -> krun K own (kstart K) l = Ok (s, tr) ->
    forall tr1 e tr2, tr = tr1 ++ e :: tr2 -> allowed K own peers (created tr1) e.
Proof. exact eph_use. Qed.
Print Assumptions C81_use.

(** The ephemeral secrets in memory are those of the newest two key pairs. *)
Theorem C81_memory :
  forall K own peers l s tr, proper peers l -> krun K own (kstart K) l = Ok (s, tr) ->
    match k_keys s with
    | None => created tr = []
    | Some _ => ephemerals s = rev (map kp_secret (firstn 2 (map snd (created tr) ++ [no_pair; no_pair])))
    end.
Proof. exact eph_memory. Qed.
Print Assumptions C81_memory.

(** After handshakes were sent or received at two times 15 seconds apart, nothing is
    left of key pairs created 15 seconds before the first of them. *)
Theorem C81_forgotten :
  forall K own peers l1 o1 l2 o2 l3 s tr,
    proper peers (l1 ++ [o1] ++ l2 ++ [o2] ++ l3) -> handshakes o1 = true -> handshakes o2 = true ->
    time_of o1 + 15000 <= time_of o2 ->
    krun K own (kstart K) (l1 ++ [o1] ++ l2 ++ [o2] ++ l3) = Ok (s, tr) ->
    forall x, In x (ephemerals s) ->
      exists t k, In (t, k) (created tr) /\ x = kp_secret k /\ time_of o1 - 15000 < t.
Proof. exact eph_forgotten. Qed.
Print Assumptions C81_forgotten.

(** Nothing but a handshake removes an ephemeral secret from memory. *)
Theorem C81_kept :
  forall K own l s s' tr, Forall (fun o => handshakes o = false) l -> k_keys s <> None ->
    krun K own s l = Ok (s', tr) -> ephemerals s' = ephemerals s.
Proof. exact eph_kept. Qed.
Print Assumptions C81_kept.

(** The handshake cache of a peer is empty or holds the result of the key exchange
    as the responder with a key pair of this program. *)
Theorem C81_cache :
  forall K own peers l s tr, proper peers l -> krun K own (kstart K) l = Ok (s, tr) ->
    forall pid sigma shared, cached s pid = Some (sigma, shared) ->
      (sigma = zero32 /\ shared = zero32) \/
      exists t k hk, In (t, k) (created tr) /\ make_shared K false own k (peers pid) hk = Some (sigma, shared).
Proof. exact eph_cache. Qed.
Print Assumptions C81_cache.

(** When a session is established as the responder, the cache is emptied. *)
Theorem C81_cleared :
  forall K own s o s' ev, kstep K own s o = Ok (s', ev) ->
    forall t pid k hk sigma salt, In (Established t pid false k hk sigma salt) ev ->
      cached s' pid = Some (zero32, zero32).
Proof. exact eph_cleared. Qed.
Print Assumptions C81_cleared.

(** ** Examples *)

(** A toy group *)
Definition y_kex : kex := {|
  k_pt := N; k_zero := 0%N; k_add := fun p q => ((p + q) mod 8072)%N; k_is_zero := N.eqb 0; k_base := 8%N;
  k_order := 1009%N; k_store := le_bytes 32; k_load := fun l => Some (le_val l);
  k_gf_add := fun a b => ((a + b) mod 1009)%N; k_gf_mult := fun a b => ((a * b) mod 1009)%N;
  k_hash := fun m => le_bytes 32 (le_val m); k_extract := fun s m => firstn 32 m; k_expand := fun n k i => k |}.
Definition y_own : keypair := mk_keypair (le_bytes 32 3) (le_bytes 32 192).
Definition y_peer : peerkey y_kex := @mk_peerkey y_kex (le_bytes 32 80) 80%N.
Definition y_peers (_ : N) : peerkey y_kex := y_peer.
Definition y_rnd (n : N) : bytes := le_bytes 32 n.
Definition y_pair (n : N) : keypair := match new_handshake_key y_kex (y_rnd n) with Ok k => k | _ => no_pair end.
Definition y_pkt (type : N) (rhk : bytes) (ver : option bool) : hspkt :=
  mk_hspkt (Some 1%N) ver type false (le_bytes 32 400) rhk true (fun _ => true) Succeeds.

Lemma y_word n : word256 (y_rnd n).
Proof. split; [apply len_le_bytes|apply wf_le_bytes]. Qed.

(** The peer starts a handshake and finishes it 16 seconds later with the key that
    is not the newest one any more. *)
Definition y_run : list (kop y_kex) :=
  [KAdd 0 1 y_peer true; KHandle 10 (y_rnd 800) (y_pkt 1 [] (Some true)); KInit 15011 (y_rnd 1600);
   KHandle 16010 (y_rnd 2400) (y_pkt 3 (kp_public (y_pair 800)) (Some true))].

Example C81_nonvacuous :
  proper y_peers y_run /\
  match krun y_kex y_own (kstart y_kex) y_run with
  | Ok (s, [Created 10 k; Responded 10 1 false k' _; Created 15011 k2; Offered 15011 k3;
            Used 16010 1 k4 _; Established 16010 1 false k5 _ _ _]) =>
      forallb (fun x => bytes_eqb (kp_secret x) (kp_secret k)) [k'; k4; k5] &&
      bytes_eqb (kp_secret k2) (kp_secret k3) && negb (bytes_eqb (kp_secret k) (kp_secret k2)) &&
      match cached s 1 with Some (a, b) => bytes_eqb a zero32 && bytes_eqb b zero32 | None => false end
  | _ => false
  end = true.
Proof.
  split; [|vm_compute; reflexivity]. unfold proper, y_run. cbn [clock time_of].
  split; [lia|]. split; [repeat (apply Forall_cons; [first [exact I | apply y_word]|]); apply Forall_nil|].
  split; [repeat constructor|]. cbn [added flat_map app]. constructor; [intros []|constructor].
Qed.

(** Two handshakes later the first key is gone. *)
Example C81_nonvacuous_forgotten :
  proper y_peers ([KInit 0 (y_rnd 8)] ++ [KInit 20000 (y_rnd 16)] ++ [] ++ [KInit 35000 (y_rnd 24)] ++ []) /\
  match krun y_kex y_own (kstart y_kex) [KInit 0 (y_rnd 8); KInit 20000 (y_rnd 16); KInit 35000 (y_rnd 24)] with
  | Ok (s, _) => map le_val (ephemerals s) = map (fun n => le_val (kp_secret (y_pair n))) [16%N; 24%N]
  | _ => False
  end.
Proof.
  split; [|vm_compute; reflexivity]. unfold proper. cbn [app clock time_of].
  split; [lia|]. split; [repeat (apply Forall_cons; [first [exact I | apply y_word]|]); apply Forall_nil|].
  split; [repeat constructor|constructor].
Qed.

(** ** What does not hold *)

(** A key pair that is not valid any more is not removed from memory by time: while
    there are no handshakes it stays for ever. *)
Theorem C81_erased_refuted :
  forall d, 0 <= d -> exists l s tr k,
    proper y_peers l /\ krun y_kex y_own (kstart y_kex) l = Ok (s, tr) /\
    created tr = [(0, k)] /\ (exists o, In o l /\ time_of o = d) /\
    In (kp_secret k) (ephemerals s) /\ kp_secret k <> zero32.
Proof.
  intros d Hd.
  set (l := [KInit 0 (y_rnd 8); KReset d 1] : list (kop y_kex)).
  assert (P : proper y_peers l).
  { unfold proper, l. cbn [clock time_of]. split; [lia|].
    split; [repeat (apply Forall_cons; [first [exact I | apply y_word]|]); apply Forall_nil|]. split; [repeat constructor|constructor]. }
  destruct (C81_safe y_kex y_own y_peers l P) as (s & tr & E).
  exists l, s, tr, (y_pair 8). split; [exact P|]. split; [exact E|].
  assert (Et : match krun y_kex y_own (kstart y_kex) l with
               | Ok (s, tr) => (tr, negb (existsb (bytes_eqb zero32) (tl (ephemerals s))), tl (ephemerals s))
               | _ => ([], false, []) end =
               ([Created 0 (y_pair 8); Offered 0 (y_pair 8)], true, [kp_secret (y_pair 8)])) by (vm_compute; reflexivity).
  rewrite E in Et. clear E P. generalize dependent (y_pair 8). intros k Et.
  injection Et as Et E1 E2. rewrite Et. split; [reflexivity|].
  split; [exists (KReset d 1); split; [right; now left|reflexivity]|].
  destruct (ephemerals s) as [|x r]; [discriminate|]. cbn [tl] in E1, E2. rewrite E2 in *.
  split; [right; now left|]. intros Z. rewrite Z in E1. cbn [existsb] in E1.
  assert (B : bytes_eqb zero32 zero32 = true) by (apply bytes_eqb_eq; reflexivity). rewrite B in E1. discriminate.
Qed.
Print Assumptions C81_erased_refuted.

(** After an asynchronous verification a handshake is answered with a key pair of
    any age, also if it is not valid any more (the peer's answer to it will be
    refused). *)
Theorem C81_late_response_refuted :
  forall d, 0 <= d -> exists l s tr k hk,
    proper y_peers l /\ krun y_kex y_own (kstart y_kex) l = Ok (s, tr) /\
    created tr = [(0, k)] /\ In (Responded d 1 true k hk) tr.
Proof.
  intros d Hd.
  set (l := [KAdd 0 1 y_peer true; KHandle 0 (y_rnd 8) (y_pkt 1 [] None); KVerifyReturn d 1 (le_bytes 32 400)]).
  assert (P : proper y_peers l).
  { unfold proper, l. cbn [clock time_of]. split; [lia|].
    split; [repeat (apply Forall_cons; [first [exact I | apply y_word]|]); apply Forall_nil|].
    split; [repeat constructor|]. cbn [added flat_map app]. constructor; [intros []|constructor]. }
  destruct (C81_safe y_kex y_own y_peers l P) as (s & tr & E).
  exists l, s, tr, (y_pair 8), (le_bytes 32 400). split; [exact P|]. split; [exact E|].
  assert (Et : match krun y_kex y_own (kstart y_kex) l with Ok (_, tr) => tr | _ => [] end =
               [Created 0 (y_pair 8); Responded d 1 true (y_pair 8) (le_bytes 32 400)]) by (vm_compute; reflexivity).
  rewrite E in Et. rewrite Et. split; [reflexivity|]. right. now left.
Qed.
Print Assumptions C81_late_response_refuted.

(** The cached result of a key exchange outlives the ephemeral secret it was made
    with, and a reset of the peer. *)
Theorem C81_cache_forgotten_refuted :
  exists l s tr sigma shared,
    proper y_peers l /\ krun y_kex y_own (kstart y_kex) l = Ok (s, tr) /\
    In (KReset 50000 1) l /\ cached s 1 = Some (sigma, shared) /\
    make_shared y_kex false y_own (y_pair 8) y_peer (le_bytes 32 400) = Some (sigma, shared) /\
    ~ In (kp_secret (y_pair 8)) (ephemerals s).
Proof.
  set (l := [KAdd 0 1 y_peer true; KHandle 0 (y_rnd 8) (y_pkt 1 [] (Some true)); KInit 20000 (y_rnd 40);
             KInit 40000 (y_rnd 48); KReset 50000 1]).
  assert (P : proper y_peers l).
  { unfold proper, l. cbn [clock time_of]. split; [lia|].
    split; [repeat (apply Forall_cons; [first [exact I | apply y_word]|]); apply Forall_nil|].
    split; [repeat constructor|]. cbn [added flat_map app]. constructor; [intros []|constructor]. }
  destruct (C81_safe y_kex y_own y_peers l P) as (s & tr & E).
  set (m := match make_shared y_kex false y_own (y_pair 8) y_peer (le_bytes 32 400) with Some x => x | None => ([], []) end).
  exists l, s, tr, (fst m), (snd m). split; [exact P|]. split; [exact E|]. split; [do 4 right; now left|].
  assert (Es : match krun y_kex y_own (kstart y_kex) l with
               | Ok (s, _) =>
                   match cached s 1 with Some (a, b) => bytes_eqb a (fst m) && bytes_eqb b (snd m) | None => false end &&
                   negb (existsb (bytes_eqb (kp_secret (y_pair 8))) (ephemerals s))
               | _ => false
               end = true) by (vm_compute; reflexivity).
  assert (Em : match make_shared y_kex false y_own (y_pair 8) y_peer (le_bytes 32 400) with Some x => true | None => false end = true)
    by (vm_compute; reflexivity).
  assert (Em2 : make_shared y_kex false y_own (y_pair 8) y_peer (le_bytes 32 400) = Some (fst m, snd m)).
  { unfold m. destruct (make_shared y_kex false y_own (y_pair 8) y_peer (le_bytes 32 400)) as [[a b]|]; [reflexivity|discriminate]. }
  clear Em. clearbody m. rewrite E in Es. clear E P. clearbody l. generalize dependent (y_pair 8). intros k Es Em2.
  apply andb_true_iff in Es as [E1 E2].
  split; [|split; [exact Em2|]].
  - destruct (cached s 1) as [[a b]|]; [|discriminate]. apply andb_true_iff in E1 as [A B].
    apply bytes_eqb_eq in A. apply bytes_eqb_eq in B. rewrite A, B. reflexivity.
  - intros H. apply negb_true_iff in E2.
    assert (T : existsb (bytes_eqb (kp_secret k)) (ephemerals s) = true).
    { apply existsb_exists. exists (kp_secret k). split; [exact H|]. apply bytes_eqb_eq. reflexivity. }
    congruence.
Qed.
Print Assumptions C81_cache_forgotten_refuted.
