(** C75: the peers that are read from peer directories are those that the files define. *)
From Verif Require Import Base BufferModel LexModel LexSpec MethodModel AddrModel AddrProofs ConfigModel ConfigSpec DirModel DirSpec DirProofs3.
From Coq Require Import String.
Local Open Scope N_scope.

(** Whatever happened to the file system since the configuration was read: the directories of every group are read once, and what is
    added are the peers that their files define, each one in its group.  Nothing else of the configuration is changed by them. *)
Theorem C75_defined : forall E T cwd0 name c cwd cwd' c' l, read_config E cwd0 name default_config = Ok (Some c) -> real_paths E T ->
  load_dirs T cwd c = Ok (cwd', c', l) -> c' = c /\ all_groups T cwd c l.
Proof. exact load_defined. Qed.

(** A file defines at most one peer *)
Theorem C75_one : forall T here dir name g p q, defines T here dir name g p -> defines T here dir name g q -> p = q.
Proof. exact defines_unique. Qed.

(** The directories are read to the end, unless files are nested too deep *)
Theorem C75_total : forall E T cwd0 name c cwd, read_config E cwd0 name default_config = Ok (Some c) -> sane (t_env T) -> named T ->
  (exists cwd' l, load_dirs T cwd c = Ok (cwd', c, l)) \/ (load_dirs T cwd c = Fatal /\ too_deep T c).
Proof. exact load_total. Qed.

(** Afterwards the working directory is the same again *)
Theorem C75_back : forall E T cwd0 name c cwd cwd' c' l, read_config E cwd0 name default_config = Ok (Some c) -> real_paths E T ->
  (forall a, e_cd (t_env T) a cwd = Some cwd) -> load_dirs T cwd c = Ok (cwd', c', l) -> cwd' = cwd.
Proof. exact load_back. Qed.

Local Open Scope string_scope.
(** A small file system: the main file, and the directories /d and /e.  A name is looked up in the directory. *)
Definition key1 : bytes := w "key ""0000000000000000000000000000000000000000000000000000000000000a01"";".
Definition key2 : bytes := w "key ""0000000000000000000000000000000000000000000000000000000000000b02"";".
Definition ex_file (self : bool) (cwd name : bytes) : option bytes :=
  if bytes_eqb name (w "m") then Some (w "include peers from ""/d"";peer group ""x"" {include peers from ""/e"";}")
  else if bytes_eqb cwd (w "/d") then
    (if bytes_eqb name (w "a") then Some (key1 ++ w "float yes;")%list
     else if bytes_eqb name (w ".b") then Some key2
     else if bytes_eqb name (w "b~") then Some key2
     else if bytes_eqb name (w "n") then Some (w "float yes;")
     else if bytes_eqb name (w "s") then Some (if self then w "include ""s"";" else key2 ++ w "mtu 1;")%list
     else None)
  else if bytes_eqb cwd (w "/e") then
    (if bytes_eqb name (w "a") then Some (w "include ""k"";mtu 600;") else if bytes_eqb name (w "k") then Some key2 else None)
  else None.
Definition ex_env (self : bool) : env :=
  Env (Build true true true true true true true) (fun a => if Nat.leb (List.length a) 15 then Some a else None)
    (fun a => if Nat.leb (List.length a) 45 then Some ((repeat 0 15 ++ [1])%list) else None) (fun a => a) (fun _ _ => false) (fun _ _ => false) (w "ec25519-fhmqvc")
    (fun _ => true) ([], [], false) (fun cwd name => option_map (fun s => (s, [3; 4; 5]%nat, false)) (ex_file self cwd name))
    (fun cwd d => if bytes_eqb d (w ".") then (if bytes_eqb cwd (w ".") then None else Some cwd) else Some d) (fun _ => w ".").
Definition ex_tree (self : bool) : tree :=
  Tree (ex_env self) (fun _ => true)
    (fun here => if bytes_eqb here (w "/d") then [w ".b"; w "n"; w "a"; w "dir"; w "b~"; w "s"; w "gone"] else [w "a"])
    (fun here name => if bytes_eqb name (w "gone") then None else Some (negb (bytes_eqb name (w "dir")))).
Definition ex_main (self : bool) : res (option conf) := read_config (ex_env self) (w "/") (Some (w "m")) default_config.
Definition ex_load (T : tree) : option (res (bytes * list peer_conf)) :=
  match ex_main false with
  | Ok (Some c) => Some (match load_dirs T (w "/") c with Ok (d, _, l) => Ok (d, l) | Bug => Bug | Fatal => Fatal | UB => UB end)
  | _ => None
  end.

(** It is not true that a file in a peer directory never ends the program: one that includes itself does, also when the directories
    are read again while the program runs *)
Theorem C75_ends_refuted : ~ (forall E T cwd0 name c cwd, read_config E cwd0 name default_config = Ok (Some c) -> sane (t_env T) -> named T ->
  load_dirs T cwd c <> Fatal).
Proof.
  intros H. destruct (ex_main false) as [[c|]| | |] eqn:M; try (vm_compute in M; discriminate M).
  apply (H (ex_env false) (ex_tree true) (w "/") (Some (w "m")) c (w "/") M).
  - split; intros a L; cbn; destruct (Nat.leb_spec (List.length a) 15); destruct (Nat.leb_spec (List.length a) 45); try lia; reflexivity.
  - intros here I. cbn [ex_tree t_names] in I. destruct (bytes_eqb here (w "/d")); cbn in I; intuition discriminate.
  - vm_compute in M. injection M as <-. vm_compute. reflexivity.
Qed.
(** Nor that a peer is kept if its file cannot be read for once: it is no longer among the definitions, and is removed (C35) *)
Theorem C75_kept_refuted : ~ (forall E T T' cwd0 name c cwd w1 w2 c1 c2 l1 l2, read_config E cwd0 name default_config = Ok (Some c) ->
  t_open T = t_open T' -> t_names T = t_names T' -> t_stat T = t_stat T' -> e_cd (t_env T) = e_cd (t_env T') ->
  load_dirs T cwd c = Ok (w1, c1, l1) -> load_dirs T' cwd c = Ok (w2, c2, l2) -> map pc_key l1 = map pc_key l2).
Proof.
  intros H. destruct (ex_main false) as [[c|]| | |] eqn:M; try (vm_compute in M; discriminate M).
  pose (E' := Env (Build true true true true true true true) (fun a => None) (fun a => None) (fun a => a) (fun _ _ => false) (fun _ _ => false) (w "ec25519-fhmqvc")
    (fun _ => true) ([], [], false) (fun cwd name => None) (fun cwd d => if bytes_eqb d (w ".") then (if bytes_eqb cwd (w ".") then None else Some cwd) else Some d) (fun _ => w ".")).
  pose (T' := Tree E' (t_open (ex_tree false)) (t_names (ex_tree false)) (t_stat (ex_tree false))).
  destruct (load_dirs (ex_tree false) (w "/") c) as [[[w1 c1] l1]| | |] eqn:L1; [|exfalso; vm_compute in M; injection M as <-; vm_compute in L1; discriminate L1..].
  destruct (load_dirs T' (w "/") c) as [[[w2 c2] l2]| | |] eqn:L2; [|exfalso; vm_compute in M; injection M as <-; vm_compute in L2; discriminate L2..].
  specialize (H (ex_env false) (ex_tree false) T' (w "/") (Some (w "m")) c (w "/") w1 w2 c1 c2 l1 l2 M eq_refl eq_refl eq_refl eq_refl L1 L2).
  vm_compute in M. injection M as <-. vm_compute in L1, L2. injection L1 as <- <- <-. injection L2 as <- <- <-. vm_compute in H. discriminate H.
Qed.

Print Assumptions C75_defined.
Print Assumptions C75_one.
Print Assumptions C75_total.
Print Assumptions C75_back.
Print Assumptions C75_ends_refuted.
Print Assumptions C75_kept_refuted.

(** The files .b, b~, dir and gone are skipped, n has no key and s a wrong statement *)
Example C75_defined_ex : ex_load (ex_tree false) = Some (Ok (w "/",
  [PeerConf (Some (w "a")) 0 (Some (w "/d")) (Some (repeat 0 30 ++ [10; 1])%list) [] true None 0;
   PeerConf (Some (w "a")) 1 (Some (w "/e")) (Some (repeat 0 30 ++ [11; 2])%list) [] false None 600])).
Proof. vm_compute. reflexivity. Qed.
Example C75_ends_ex : ex_load (ex_tree true) = Some Fatal.
Proof. vm_compute. reflexivity. Qed.
(** The hypotheses hold *)
Example C75_paths_ex : sane (t_env (ex_tree false)) /\ named (ex_tree false) /\ real_paths (ex_env false) (ex_tree false) /\
  forall a, e_cd (t_env (ex_tree false)) a (w "/") = Some (w "/").
Proof.
  split; [|split; [|split]].
  - split; intros a L; cbn; destruct (Nat.leb_spec (List.length a) 15); destruct (Nat.leb_spec (List.length a) 45); try lia; reflexivity.
  - intros here I. cbn [ex_tree t_names] in I. destruct (bytes_eqb here (w "/d")); cbn in I; intuition discriminate.
  - assert (N : forall r, bytes_eqb r (w ".") = false -> absolute (ex_tree false) r).
    { intros r B a b. cbn [ex_tree t_env ex_env e_cd]. rewrite B. reflexivity. }
    intros cwd dir r H. apply N. cbn [ex_env e_cd] in H. destruct (bytes_eqb dir (w ".")) eqn:B.
    + destruct (bytes_eqb cwd (w ".")) eqn:B2; [discriminate|]. injection H as <-. exact B2.
    + injection H as <-. exact B.
  - reflexivity.
Qed.
