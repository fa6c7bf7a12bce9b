(** When handshakes are sent: vocabulary for stating what nodes do about peers they are
    not connected to *)
From Verif Require Import Base NodeModel NodeSpec.
Local Open Scope Z_scope.

(** A peer a connection is wanted with: it is enabled, its configuration gives addresses
    or hostnames ("remotes"), and there is no connection *)
Definition wanted (p : peer) : Prop := is_enabled p = true /\ is_established p = false /\ p_remotes p <> [].

(** The known addresses of each remote, and the address that is next: the number of the
    remote, and the number of the address among those of the remote *)
Definition addresses (p : peer) : list (list addr) := map r_addrs (p_remotes p).
Definition position (p : peer) : option (nat * nat) :=
  match p_next_remote p with
  | Some i => match nth_error (p_remotes p) i with Some r => Some (i, r_cur r) | None => None end
  | None => None
  end.
(** the one after it, in turn *)
Definition following (l : list (list addr)) (x : nat * nat) : nat * nat :=
  let (i, c) := x in
  if Nat.ltb (S c) (length (nth i l [])) then (i, S c) else if Nat.ltb (S i) (length l) then (S i, 0%nat) else (0%nat, 0%nat).

(** the peer must wait because a group it belongs to, or a group around that, is full *)
Definition full (P : params) (n : node) (p : peer) : Prop :=
  exists g m, In g (p_group p) /\ c_limit P g = Some m /\
    (m <= length (filter (fun q => is_established q && existsb (Nat.eqb g) (p_group q))%bool (n_peers n)))%nat.

(** what happened in one step, in order *)
Definition says (n n' : node) (l : list out) : Prop := n_out n' = map (fun o => (n_now n', o)) (rev l) ++ n_out n.

(** The turn of [p]: its task is handled when its next handshake is due *)
Definition turn (P : params) (n : node) (dt : N) (n' : node) (p : peer) : Prop :=
  handles P n dt (EvTask (p_id p)) n' /\ exists h, p_next_hs p = Some h /\ h <= n_now n'.

(** reasons for not sending a handshake to an address [a] of [p]: another peer has it (by
    its configuration or as its connection), or there is no socket *)
Definition taken (n : node) (p : peer) (a : addr) : Prop :=
  exists q, In q (n_peers n) /\ p_id q <> p_id p /\ is_enabled q = true /\
    ((is_floating q = false /\ exists r, In r (p_remotes q) /\ r_host r = None /\ r_addr r = a) \/ (p_addr q = Some a /\ is_established q = true)).
Definition attempt (n : node) (p p' : peer) (x : nat * nat) (l : list out) : Prop :=
  match nth_error (nth (fst x) (addresses p) []) (snd x) with
  | None => nth (fst x) (addresses p) [] = [] /\ l = []
  | Some a => l = [OInit (Some (p_id p)) a] \/ (l = [] /\ (taken n p a \/ p_sock p' = None))
  end.
(** a hostname is looked up again (unless that happened a short time ago, or no thread
    could be started) before its addresses are used *)
Definition lookup (p : peer) (i : nat) (l : list out) : Prop :=
  l = [] \/ (l = [OResolve (p_id p) i] /\ exists r, nth_error (p_remotes p) i = Some r /\ r_host r <> None).

(** The next handshake is in 17.5 to 22.5 seconds *)
Definition soon (n' : node) (p' : peer) : Prop := exists h, p_next_hs p' = Some h /\ n_now n' + 17500 <= h < n_now n' + 22500.

(** A sequence of steps in which [pid] stays unconnected, with the positions of its
    turns; steps between the turns do not restart the peer *)
Definition wants (n : node) (pid : N) (p : peer) : Prop := In p (n_peers n) /\ p_id p = pid /\ wanted p.
Definition steady (p p' : peer) : Prop := position p' = position p /\ map (@length addr) (addresses p') = map (@length addr) (addresses p).
Inductive journey (P : params) (pid : N) : node -> list (nat * nat) -> node -> Prop :=
| j_start : forall n, journey P pid n [] n
| j_between : forall n l n1 dt ev n' p p', journey P pid n l n1 -> handles P n1 dt ev n' ->
    wants n1 pid p -> wants n' pid p' -> steady p p' -> journey P pid n l n'
| j_turn : forall n l n1 dt n' p p' x, journey P pid n l n1 -> wants n1 pid p -> turn P n1 dt n' p -> ~ full P n1 p -> position p = Some x ->
    wants n' pid p' -> journey P pid n (l ++ [x]) n'.
(** all positions; a remote without addresses has a turn, too *)
Definition positions (p : peer) : list (nat * nat) :=
  flat_map (fun i => map (pair i) (seq 0 (Nat.max 1 (length (nth i (addresses p) []))))) (seq 0 (length (p_remotes p))).
