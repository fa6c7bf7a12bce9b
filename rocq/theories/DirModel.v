(** Peer directories: which definitions are read from them, and in which order.  The files are read by ConfigModel.v. *)
From Verif Require Import Base BufferModel ConfigModel.
Local Open Scope N_scope.

(** What the system answers, besides what ConfigModel.v asks for.  The directories and files do not change while they are read. *)
Record tree := Tree {
  t_env : env;
  t_open : bytes -> bool; (* opendir(".") in a directory *)
  t_names : bytes -> list bytes; (* what readdir returns there, up to the end or an error *)
  t_stat : bytes -> bytes -> option bool }. (* stat: whether it is a regular file; None: failed *)

Section Dirs.
Variable T : tree.
Let E := t_env T.

(** config.c L226-242: is the file read at all?  UB: the character before an empty name *)
Definition is_read (here name : bytes) : res bool :=
  match name with
  | [] => UB
  | x :: _ =>
      if x =? 46 then Ok false (* . *)
      else if last name 0 =? 126 then Ok false (* ~ *)
      else match t_stat T here name with
           | None => Ok false
           | Some regular => Ok regular
           end
  end.

(** config.c L244-253 for one file, with the beginning of [fastd_peer_add], peer.c L729-732: a definition without a key is dropped.
    What [fastd_peer_add] does with the others is modelled in NodeModel.v. *)
Definition read_peer (here dir name : bytes) (g : nat) (c : conf) : res (conf * list peer_conf) :=
  do r <- read_file E max_depth here name g (Some (set_pc_dir (Some dir) (new_peer (Some name) 0))) c;
  match r with
  | None => Ok (c, [])
  | Some (c', None) => UB
  | Some (c', Some p) => Ok (c', match pc_key p with None => [] | Some _ => [p] end)
  end.

Fixpoint read_names (here dir : bytes) (g : nat) (names : list bytes) (c : conf) : res (conf * list peer_conf) :=
  match names with
  | [] => Ok (c, [])
  | name :: r =>
      do b <- is_read here name;
      do x <- (if b : bool then read_peer here dir name g c else Ok (c, []));
      do y <- read_names here dir g r (fst x);
      Ok (fst y, snd x ++ snd y)
  end.

(** [read_peer_dir], config.c L213-263; [here] is the working directory *)
Definition read_peer_dir (here dir : bytes) (g : nat) (c : conf) : res (conf * list peer_conf) :=
  if t_open T here then read_names here dir g (t_names T here) c else Ok (c, []).

(** [read_peer_dirs], config.c L266-281.  get_current_dir_name does not fail. *)
Fixpoint read_dirs (cwd : bytes) (g : nat) (dirs : list bytes) (c : conf) : res (bytes * conf * list peer_conf) :=
  match dirs with
  | [] => Ok (cwd, c, [])
  | dir :: r =>
      match e_cd E cwd dir with
      | None => read_dirs cwd g r c
      | Some here =>
          do x <- read_peer_dir here dir g c;
          do y <- read_dirs here g r (fst x);
          Ok (fst y, snd x ++ snd y)
      end
  end.
Definition read_peer_dirs (cwd : bytes) (g : nat) (c : conf) : res (bytes * conf * list peer_conf) :=
  match nth_error (c_groups c) g with
  | None => UB
  | Some x =>
      do y <- read_dirs cwd g (gc_dirs x) c;
      let '(last, c', l) := y in
      Ok (match e_cd E last cwd with Some d => d | None => last end, c', l)
  end.

(** The groups within a group.  push_group (config.c, [fastd_config_peer_group_push]) puts a new one first. *)
Definition children (c : conf) (g : nat) : list nat :=
  rev (filter (fun i => match nth_error (c_groups c) i with Some x => match gc_parent x with Some p => Nat.eqb p g | None => false end | None => false end)
         (seq 0 (List.length (c_groups c)))).

(** [peer_dirs_read_peer_group], config.c L621-627 *)
Fixpoint read_group (fuel : nat) (g : nat) (cwd : bytes) (c : conf) : res (bytes * conf * list peer_conf) :=
  match fuel with
  | O => UB
  | S f =>
      do x <- read_peer_dirs cwd g c;
      let '(cwd, c, l) := x in
      (fix each (gs : list nat) (cwd : bytes) (c : conf) (l : list peer_conf) : res (bytes * conf * list peer_conf) :=
         match gs with
         | [] => Ok (cwd, c, l)
         | g :: r => do y <- read_group f g cwd c; let '(cwd, c, l') := y in each r cwd c (l ++ l')
         end) (children c g) cwd c l
  end.

(** The call in [fastd_config_load_peer_dirs], config.c L698 *)
Definition load_dirs (cwd : bytes) (c : conf) : res (bytes * conf * list peer_conf) := read_group (List.length (c_groups c)) 0 cwd c.
End Dirs.
