(** Which peers are defined by the files in peer directories. *)
From Verif Require Import Base BufferModel LexModel LexSpec ConfigModel ConfigSpec DirModel.
From Coq Require Import String.
Local Open Scope N_scope.

(** A file that counts: its name neither begins with a dot nor ends with a tilde, and it is a regular file *)
Definition counts (T : tree) (here name : bytes) : Prop :=
  (forall r, name <> 46 :: r) /\ (forall r, name <> r ++ [126]) /\ t_stat T here name = Some true.

(** What a file in the directory [dir] of the group [g] says.  At most nine files are nested in it. *)
Definition file_says (T : tree) (here name : bytes) (ps : list psetting) : Prop :=
  exists d inner, file_is (t_env T) here name d (peer_text inner ++ [LEof]) /\ peer_means (t_env T) 9 d inner ps.
Definition defines (T : tree) (here dir name : bytes) (g : nat) (p : peer_conf) : Prop :=
  counts T here name /\ pc_dir p = Some dir /\ exists ps, file_says T here name ps /\ peer_is (t_env T) (Some name, g, ps) (set_pc_dir None p).

(** One peer for each file that defines one, in the order of the files *)
Inductive each_file (T : tree) (here dir : bytes) (g : nat) : list bytes -> list peer_conf -> Prop :=
| ef_nil : each_file T here dir g [] []
| ef_peer name p names l : defines T here dir name g p -> each_file T here dir g names l -> each_file T here dir g (name :: names) (p :: l)
| ef_none name names l : (forall p, ~ defines T here dir name g p) -> each_file T here dir g names l -> each_file T here dir g (name :: names) l.

(** A directory *)
Definition of_dir (T : tree) (cwd : bytes) (g : nat) (dir : bytes) (l : list peer_conf) : Prop :=
  match e_cd (t_env T) cwd dir with
  | Some here => if t_open T here then each_file T here dir g (t_names T here) l else l = []
  | None => l = []
  end.
(** A group: its directories, the last one first *)
Definition of_group (T : tree) (cwd : bytes) (c : conf) (g : nat) (l : list peer_conf) : Prop :=
  exists x ls, nth_error (c_groups c) g = Some x /\ Forall2 (of_dir T cwd g) (gc_dirs x) ls /\ l = List.concat ls.
(** All groups: each one once, and none before the group it belongs to *)
Definition parents_first (c : conf) (order : list nat) : Prop :=
  forall a i b x p, order = a ++ i :: b -> nth_error (c_groups c) i = Some x -> gc_parent x = Some p -> In p a.
Definition all_groups (T : tree) (cwd : bytes) (c : conf) (l : list peer_conf) : Prop :=
  exists order ls, NoDup order /\ (forall g, In g order <-> (g < List.length (c_groups c))%nat) /\ parents_first c order /\
    Forall2 (of_group T cwd c) order ls /\ l = List.concat ls.

(** The names of directories are absolute, see C60: where they lead does not depend on the working directory *)
Definition absolute (T : tree) (dir : bytes) : Prop := forall a b, e_cd (t_env T) a dir = e_cd (t_env T) b dir.
Definition absolute_dirs (T : tree) (c : conf) : Prop := forall x dir, In x (c_groups c) -> In dir (gc_dirs x) -> absolute T dir.
(** readdir does not return an empty name *)
Definition named (T : tree) : Prop := forall here, ~ In [] (t_names T here).

(** After proper statements another file is to be read, but no more files can be nested: [d] more can *)
Inductive deep (E : env) : nat -> bytes -> list lexeme -> Prop :=
| deep_here cwd body ps f post : peer_means E 0 cwd body ps -> deep E 0 cwd (peer_text body ++ [K "include"; LStr f] ++ post)
| deep_file d cwd body ps f dir inner post : peer_means E (S d) cwd body ps -> file_is E cwd f dir inner -> deep E d dir inner ->
    deep E (S d) cwd (peer_text body ++ [K "include"; LStr f] ++ post).
Definition too_deep (T : tree) (c : conf) : Prop :=
  exists x dir cwd here name d l, In x (c_groups c) /\ In dir (gc_dirs x) /\ e_cd (t_env T) cwd dir = Some here /\ t_open T here = true /\
    In name (t_names T here) /\ counts T here name /\ file_is (t_env T) here name d l /\ deep (t_env T) 9 d l.
(** What get_current_dir_name returned when the configuration was read leads to the same directory from everywhere *)
Definition real_paths (E : env) (T : tree) : Prop := forall cwd dir r, e_cd E cwd dir = Some r -> absolute T r.
