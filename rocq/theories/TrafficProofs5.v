(** Proofs for C73: concrete executions and what is false *)
From Verif Require Import Base BufferModel TrafficModel TrafficSpec TrafficProofs TrafficProofs2 TrafficProofs3 TrafficProofs4.

Fixpoint possible_run (E : environment) (C : config) (l : list op) (s : node) : Prop :=
  match l with
  | [] => True
  | o :: l => possible s o /\ match step E C o s with Ok r => possible_run E C l (fst r) | _ => False end
  end.
Lemma run_execution : forall E C l s past0 s' evs, execution E C s past0 -> possible_run E C l s -> run E C l s = Ok (s', evs) -> execution E C s' (past0 ++ evs).
Proof.
  intros E C l. induction l as [|o l IH]; intros s past0 s' evs X Hp R; cbn [run possible_run] in *.
  - injection R as <- <-. rewrite app_nil_r. exact X.
  - destruct Hp as [Hp Hr]. destruct (step E C o s) as [[s1 e1]| | |] eqn:St; try contradiction. cbn [bind fst snd] in *.
    destruct (run E C l s1) as [[s2 e2]| | |] eqn:R2; try discriminate R. cbn [bind fst snd] in R. injection R as <- <-. rewrite app_assoc. apply (IH s1); [|exact Hr | exact R2]. exact (Execution_step E C s past0 o s1 e1 X Hp St).
Qed.

(** A network in which packets for peer 2 are dropped, the source address does not work at first, and frames starting with 99
    cannot be encrypted; frames starting with 7 are reordered, the interface takes nothing *)
Definition net (send : nat -> option errno) : environment :=
  mk_environment (fun t x => negb (Nat.eqb t 40))
    (fun _ x f => match f with 99%N :: _ => None | _ => Some (s_no x :: f) end)
    (fun _ x w => match w with k :: f => if N.eqb k (s_no x) then Some (f, Some (match f with 7%N :: _ => true | _ => false end)) else None | [] => None end)
    send (fun _ => Some (EOTHER 22)) (fun _ => None).
Definition tun : config := mk_config false false.
Definition tap : config := mk_config true true.
Definition sess (n : N) : session := mk_session n true false.
Definition two : list op := [OAdd false; OAdd false; OEstablish 1 (sess 11) None (Some 5%N); OEstablish 2 (sess 12) (Some (sess 13)) (Some 5%N)]%N.
Definition ok_or_init (r : res (node * list event)) : node * list event := match r with Ok x => x | _ => (init, []) end.

Lemma two_execution : forall send, exists s, run (net send) tap two init = Ok (s, []) /\ execution (net send) tap s [].
Proof.
  intros send. eexists. split; [reflexivity|]. apply (run_execution _ _ two init [] _ []); [constructor | | reflexivity]. cbn. repeat split; auto.
Qed.

Lemma live_sum_false : ~ forall E C s evs, execution E C s evs -> forall st, packets (n_stats s) st = (present packets st (n_peers s) mod U64)%N.
Proof.
  intros H. set (l := two ++ [OIface None [4%N]; OReset 1 false]).
  set (r := ok_or_init (run (net (fun _ => None)) tun l init)).
  assert (X : execution (net (fun _ => None)) tun (fst r) ([] ++ snd r)) by (apply (run_execution _ _ l init []); [apply Execution_init | vm_compute; tauto | vm_compute; reflexivity]).
  specialize (H _ _ _ _ X STAT_TX). vm_compute in H. discriminate H.
Qed.
Lemma delivered_false : ~ forall E C s evs, execution E C s evs ->
  packets (n_stats s) STAT_RX = (N.of_nat (length (filter (fun e => match e with Write _ _ _ _ None => true | _ => false end) evs)) mod U64)%N.
Proof.
  intros H. set (l := two ++ [OPacket 1 [11; 4]%N]).
  set (r := ok_or_init (run (net (fun _ => None)) tun l init)).
  assert (X : execution (net (fun _ => None)) tun (fst r) ([] ++ snd r)) by (apply (run_execution _ _ l init []); [apply Execution_init | vm_compute; tauto | vm_compute; reflexivity]).
  specialize (H _ _ _ _ X). vm_compute in H. discriminate H.
Qed.
Lemma all_counted_false : ~ forall E C s evs dest f s' new, execution E C s evs -> possible s (OIface dest f) -> step E C (OIface dest f) s = Ok (s', new) -> f <> [] ->
  (packets (n_stats s') STAT_TX + packets (n_stats s') STAT_TX_DROPPED + packets (n_stats s') STAT_TX_ERROR =
   packets (n_stats s) STAT_TX + packets (n_stats s) STAT_TX_DROPPED + packets (n_stats s) STAT_TX_ERROR + N.of_nat (length (recipients C s None dest f)))%N.
Proof.
  intros H. set (r := ok_or_init (run (net (fun _ => None)) tun two init)).
  assert (X : execution (net (fun _ => None)) tun (fst r) ([] ++ snd r)) by (apply (run_execution _ _ two init []); [apply Execution_init | vm_compute; tauto | vm_compute; reflexivity]).
  set (r2 := ok_or_init (step (net (fun _ => None)) tun (OIface None [99%N]) (fst r))).
  specialize (H _ _ _ _ None [99%N] (fst r2) (snd r2) X I). assert (Y : step (net (fun _ => None)) tun (OIface None [99%N]) (fst r) = Ok (fst r2, snd r2)) by (vm_compute; reflexivity).
  specialize (H Y). assert (Z : [99%N] <> []) by discriminate. specialize (H Z). vm_compute in H. discriminate H.
Qed.
