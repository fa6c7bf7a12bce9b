(** What the program holds, without the functions of the model: the objects that are reachable from the
    configuration, the peers and the files being read, and the references that do not own what they refer to. *)
From Verif Require Import Base BufferModel HoldModel.
From Coq Require Import Permutation.

Definition o_list (p : option nat) : list nat := match p with Some p => [p] | None => [] end.
Definition in_stack (l : stack) : list nat := map fst l.
Definition in_cmd (c : cmd) : list nat := o_list (c_command c) ++ o_list (c_dir c).
Fixpoint in_group (g : group) : list nat :=
  match g with
  | Grp self name dirs methods cmds children =>
      self :: o_list name ++ in_stack dirs ++ in_stack methods ++ flat_map in_cmd cmds
      ++ (fix go (l : list group) := match l with [] => [] | c :: r => in_group c ++ go r end) children
  end.
Definition in_remote (r : remote) : list nat :=
  o_list (r_host r) ++ match r_addrs r with AHeap p => [p] | _ => [] end.
Definition in_peer (p : peer) : list nat :=
  p_self p :: o_list (p_name p) ++ o_list (option_map fst (p_key p)) ++ o_list (p_ifname p)
  ++ o_list (p_vec p) ++ flat_map in_remote (p_remotes p).
Definition in_bind (b : baddr) : list nat := b_self b :: o_list (b_dev b).
Definition in_file (f : list nat * list nat) : list nat := fst f ++ snd f.
Definition held (s : hold) : list nat :=
  flat_map in_file (h_files s) ++ flat_map in_group (h_open s)
  ++ match h_peer s with Some p => in_peer p | None => [] end ++ flat_map in_peer (h_peers s)
  ++ flat_map o_list (h_strs s) ++ flat_map in_cmd (h_cmds s) ++ flat_map in_bind (h_binds s)
  ++ o_list (h_groups s) ++ o_list (h_proto s) ++ in_stack (h_mlist s) ++ o_list (h_marr s)
  ++ flat_map (fun e => o_list (snd e)) (h_methods s).

(** Allocated, and not given back *)
Definition live (m : mem) (p : nat) : Prop := (p < m_next m)%nat /\ ~ In p (m_freed m).

(** References: a peer's group and directory, the address of a remote inside of the vector of remotes *)
Definition peer_refs (p : peer) : list nat :=
  o_list (p_group p) ++ o_list (p_src p)
  ++ flat_map (fun r => match r_addrs r with AInner v => [v] | _ => [] end) (p_remotes p).
Definition refs (s : hold) : list nat :=
  match h_peer s with Some p => peer_refs p | None => [] end ++ flat_map peer_refs (h_peers s)
  ++ o_list (h_vgroup s) ++ o_list (h_def4 s) ++ o_list (h_def6 s) ++ map fst (h_methods s).

(** The program reaches its end: the configuration was completed, all groups are closed and no file is being read *)
Definition at_end (s : hold) : Prop :=
  h_marr s <> None /\ length (h_open s) = 1%nat /\ h_files s = [] /\ h_peer s = None.

Definition reachable (s : hold) : Prop := exists es, run es start = Ok s.

(** What the file of a peer can hold *)
Definition in_file_of_peer (e : event) : Prop :=
  match e with EString | EToken | EKey _ | ERemote _ | EIfname => True | _ => False end.
