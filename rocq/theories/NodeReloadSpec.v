(** Reloading the peer directories: what the peers of a node should be, given the peers
    in the configuration file and the definitions found in the directories *)
From Verif Require Import Base BufferModel NodeModel NodeSpec EthSpec.

(** the definitions with a key *)
Definition of_key (k : bytes) (l : list pconf) : list pconf :=
  filter (fun c => if bytes_dec (pc_key c) k then true else false) l.

(** the configured host names and addresses of a peer *)
Definition configured_remotes (p : peer) : list (option bytes * addr) := map (fun r => (r_host r, r_addr r)) (p_remotes p).

(** the peer has what the definition says.  The MTU is left out, see C36. *)
Definition agrees (p : peer) (c : pconf) : Prop :=
  p_key p = pc_key c /\ p_group p = pc_group c /\ configured_remotes p = pc_remotes c /\
  p_floating p = pc_floating c /\ p_ifname p = pc_ifname c.

(** an enabled peer that was not added by an on-verify command *)
Definition configured (n : node) (p : peer) : Prop := In p (n_peers n) /\ p_conf p = CStatic.
Definition dynamic (n : node) (p : peer) : Prop := In p (n_peers n) /\ p_conf p = CDynamic.

(** the directories are read again in a state that was reached with [static] in the configuration file *)
Definition reloads (P : params) (static defs : list pconf) (n n' : node) : Prop :=
  exists now orc dirs evs dt, execute P now orc static dirs evs = Ok n /\ handles P n dt (EvReload defs) n'.

(** an address configured for a peer that does not float; a peer that uses an address;
    nobody else uses the address of a peer *)
Definition owner (n : node) (a : addr) (q : peer) : Prop :=
  configured n q /\ p_floating q = false /\ In (None, a) (configured_remotes q).
Definition uses (n : node) (a : addr) (p : peer) : Prop := In p (n_peers n) /\ p_addr p = Some a.
Definition respected (n : node) (a : addr) : Prop := forall q p, owner n a q -> uses n a p -> p_id p = p_id q.
