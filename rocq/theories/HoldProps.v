(** C78: the memory of the configuration and of the peers is given back once. *)
From Verif Require Import Base BufferModel HoldModel HoldSpec HoldProofs HoldProofs2 HoldProofs3 HoldProofs4 HoldProofs5.
From Coq Require Import Permutation.

(** Whatever the configuration, the directories and the network bring: nothing is freed twice, no freed object
    and no NULL is used, and no state is met that the code calls a bug *)
Theorem C78_safe : forall es, match run es start with Ok _ | Fatal => True | _ => False end.
Proof. exact safe_lemma. Qed.
Print Assumptions C78_safe.

(** The program is ended only for the sake of a peer that the configuration itself defines, not for a file
    in a peer directory *)
Theorem C78_exit : forall s e, reachable s -> step e s = Fatal ->
  exists p, h_peer s = Some p /\ p_src p = None /\ match e with EAdd _ | EDrop => True | _ => False end.
Proof. exact fatal_lemma. Qed.
Print Assumptions C78_exit.

(** At any time the objects that were allocated and not given back are those that the configuration, the peers and
    the files being read hold, each of them once: there are no leaks *)
Theorem C78_account : forall s, reachable s -> NoDup (held s) /\ forall p, live (h_mem s) p <-> In p (held s).
Proof. exact account_lemma. Qed.
Print Assumptions C78_account.

(** The groups and directories that peers refer to, the group of on verify, the default bind addresses, the names of methods and the
    addresses inside of the lists of remotes are in memory that was not given back *)
Theorem C78_refs : forall s, reachable s -> forall p, In p (refs s) -> live (h_mem s) p.
Proof. exact refs_lemma. Qed.
Print Assumptions C78_refs.

(** The end of the program: every object that was ever allocated has been given back exactly once *)
Theorem C78_end : forall s, reachable s -> at_end s ->
  exists m, finish s = Ok m /\ Permutation (m_freed m) (seq 0 (m_next m)).
Proof. exact end_lemma. Qed.
Print Assumptions C78_end.

(** A file of a peer directory that cannot be read or is not valid leaves nothing behind *)
Theorem C78_dropped : forall g d found es s s', h_peer s = None -> Forall in_file_of_peer es ->
  run (EPeerFile g d :: EFile true found :: es ++ [EEndFile; EDrop]) s = Ok s' -> held s' = held s.
Proof. exact dropped_lemma. Qed.
Print Assumptions C78_dropped.

(** Reading the file of an unchanged peer again does not need more memory *)
Theorem C78_unchanged : forall g d found es s s1 s' p o k i q,
  reachable s -> h_peer s = None -> Forall in_file_of_peer es ->
  run (EPeerFile g d :: EFile true found :: es ++ [EEndFile]) s = Ok s1 ->
  h_peer s1 = Some p -> p_key p = Some (o, k) -> find_key k (h_peers s) = Some i -> nth_error (h_peers s) i = Some q ->
  p_cfg q = CStatic -> p_name q <> None ->
  step (EAdd true) s1 = Ok s' ->
  length (held s') = length (held s) /\ length (h_peers s') = length (h_peers s).
Proof. exact unchanged_lemma'. Qed.
Print Assumptions C78_unchanged.

(** * Cases *)
(** A configuration with a group that has a directory, methods, an on verify command, a peer with a host name and an address,
    a user, two bind addresses, an included file *)
Definition config : list event :=
  [ EStr 6; EStr 6; EFile true true; EString; EStr 4; EToken; EBind true true true false false; EBind true false false true false;
    ECmd 0; ECmd 2; EMethod 1; EMethod 0; EMethod 1; EStr 1;
    EPush; EString; EGroupCmd 0; EGroupCmd 0; EDir true; EDir false; EMethod 2; EFile true true; EString; ECmd 2; EEndFile; EPop;
    EPeer true; EString; EKey None; EKey (Some 7%N); ERemote true; ERemote false; EIfname; EAdd false;
    EEndFile; EConfigure true ].
Definition configured : hold := match run config start with Ok s => s | _ => start end.
Definition the_dir : nat * nat := hd (0, 0)%nat (flat_map group_dirs (h_open configured)).
(** The directory is read; a peer changes, one is found to be a duplicate, one is dynamic *)
Definition later : list event :=
  let f := EPeerFile (fst the_dir) (snd the_dir) in
  [ ECfg 0 CStatic; ESetup 0; EResolve 0 0; EResolve 0 0; EResolve 0 1;
    f; EFile true true; EString; EKey (Some 9%N); ERemote true; EEndFile; EAdd false;
    f; EFile true true; EKey (Some 9%N); EEndFile; EAdd false;
    f; EFile true false; EEndFile; EDrop;
    EDelete 1; f; EFile true true; EKey (Some 10%N); EEndFile; EAdd false; ECfg 1 CStatic;
    f; EFile true true; EKey (Some 10%N); EEndFile; EAdd true; ECfg 1 CStatic;
    f; EFile true true; EKey (Some 10%N); ERemote true; EEndFile; EAdd false;
    EDynamic 11 true; EDynamic 12 false; f; EFile true true; EKey (Some 11%N); EEndFile; EAdd true ].
Definition grown : hold := match run later configured with Ok s => s | _ => start end.

Example ex_run : run config start = Ok configured /\ run later configured = Ok grown
  /\ length (h_peers grown) = 3%nat /\ length (refs grown) = 12%nat /\ length (held grown) = 44%nat.
Proof. vm_compute. repeat split. Qed.
Example ex_end : at_end grown /\ match finish grown with Ok m => length (m_freed m) = m_next m | _ => False end.
Proof. split; [vm_compute; repeat split; discriminate | vm_compute; reflexivity]. Qed.
(** Two peers with the same key in the configuration end the program *)
Example ex_fatal : run [EPeer true; EKey (Some 7%N); EAdd false; EPeer true; EKey (Some 7%N); EAdd false] start = Fatal.
Proof. reflexivity. Qed.
Example ex_unchanged :
  let s := match run [ECfg 0 CStatic] configured with Ok s => s | _ => start end in
  exists s1 s', run (EPeerFile (fst the_dir) (snd the_dir) :: EFile true true :: [EString; EKey (Some 7%N); ERemote true; ERemote false; EIfname] ++ [EEndFile]) s
       = Ok s1 /\ step (EAdd true) s1 = Ok s' /\ length (held s') = length (held s) /\ m_next (h_mem s') = (m_next (h_mem s) + 14)%nat.
Proof. vm_compute. do 2 eexists. repeat split. Qed.
