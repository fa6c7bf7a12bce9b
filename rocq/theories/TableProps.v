(** C31: the hash table from addresses to peers.  [addresses ops] are the addresses of the
    peers after the operations [ops], independently of any table. *)
From Verif Require Import Base BufferModel MethodModel AddrModel AddrSpec TableModel TableSpec TableProofs.
Local Open Scope N_scope.

(** No sequence of operations, with any seeds, reaches undefined behaviour or a dangling
    pointer in the table, and growing never recurses. *)
Theorem C31_operations_defined : forall seed ops, all_legal (fun _ => None) ops -> exists w, trun ops (table_init seed) = Ok w.
Proof. exact run_defined. Qed.
Print Assumptions C31_operations_defined.

Theorem C31_lookup_agrees : forall seed ops w a,
  all_legal (fun _ => None) ops -> trun ops (table_init seed) = Ok w ->
  match a with AInet _ _ | AInet6 _ _ _ _ => True | _ => False end ->
  (exists pid b, lookup w a = Ok (Some pid) /\ addresses ops pid = Some b /\ address_equal b a = true) \/
  (lookup w a = Ok None /\ forall pid b, addresses ops pid = Some b -> address_equal b a = false).
Proof. exact lookup_run. Qed.
Print Assumptions C31_lookup_agrees.

(** The peer found is the one with that address if only one has it. *)
Theorem C31_lookup_finds : forall seed ops w a pid b,
  all_legal (fun _ => None) ops -> trun ops (table_init seed) = Ok w ->
  match a with AInet _ _ | AInet6 _ _ _ _ => True | _ => False end ->
  addresses ops pid = Some b -> address_equal b a = true ->
  (forall pid' b', addresses ops pid' = Some b' -> address_equal b' a = true -> pid' = pid) ->
  lookup w a = Ok (Some pid).
Proof. exact lookup_unique. Qed.
Print Assumptions C31_lookup_finds.

(** In terms of what addresses denote, if peers only have normalised addresses (as
    packets are looked up by) *)
Theorem C31_lookup_denotes : forall seed ops w a,
  all_legal (fun _ => None) ops -> trun ops (table_init seed) = Ok w ->
  match a with AInet _ _ | AInet6 _ _ _ _ => True | _ => False end ->
  swf a -> (forall pid b, addresses ops pid = Some b -> swf b /\ address_simplify b = b) ->
  exists r, lookup w (address_simplify a) = Ok r /\
    match r with
    | Some pid => exists b, addresses ops pid = Some b /\ denotes b = denotes a
    | None => forall pid b, addresses ops pid = Some b -> denotes b <> denotes a
    end.
Proof. exact lookup_denotes. Qed.
Print Assumptions C31_lookup_denotes.

(** Twenty peers, so that the table grows once; one moves, one is deleted *)
Definition ex_addr (k : N) : saddr := AInet [10; 0; 0; k] [39; 16].
Definition ex_ops : list top :=
  flat_map (fun k => [TNew k; TClaim k (ex_addr k) (1000 + k)]) (map N.of_nat (seq 1 20)) ++ [TClaim 3 (ex_addr 200) 5; TDelete 4; TReset 5].
Example C31_hypotheses_met :
  all_legal (fun _ => None) ex_ops /\
  exists w, trun ex_ops (table_init 77) = Ok w /\ length (t_buckets w) = 16%nat /\ t_seed w = 1017 /\
    lookup w (ex_addr 19) = Ok (Some 19) /\ lookup w (ex_addr 200) = Ok (Some 3) /\
    lookup w (ex_addr 3) = Ok None /\ lookup w (ex_addr 4) = Ok None /\ lookup w (ex_addr 5) = Ok None.
Proof.
  split; [vm_compute; repeat split; congruence|]. eexists. split; [vm_compute; reflexivity|]. repeat split; vm_compute; reflexivity.
Qed.
