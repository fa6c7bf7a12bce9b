(** What offloading must achieve, in terms of the kernel's tunnels and sockets. *)
From Coq Require Import List NArith Bool.
From Verif Require Import L2tpModel.
Import ListNotations.
Local Open Scope N_scope.

(** Peer [n] is offloaded, with the session [e] *)
Definition live (s : st) (n : N) (e : session) : Prop := p_off (s_peers s n) = Some e.
(** Open sockets *)
Definition open (s : st) (fd : N) : Prop := In fd (map k_fd (s_fds s)).
(** The sockets of the bind addresses: the first ones after that of the self-test *)
Definition bound (binds : list (option N * N)) (fd : N) : Prop := 2 <= fd < 2 + N.of_nat (length binds).
Definition defaults_ok (c : config) (binds : list (option N * N)) : Prop :=
  forall d, c_default4 c = Some d \/ c_default6 c = Some d -> bound binds d.

(** Names of the interfaces of tunnels *)
Definition names (l : list tun) : list N := flat_map (fun t => match t_ses t with Some (m, _) => [m] | None => [] end) l.
(** Tunnels of other programs, with different ids and interfaces *)
Definition foreign (l : list tun) : Prop := (forall t, In t l -> t_fd t = None) /\ NoDup (map t_id l) /\ NoDup (names l).

(** Messages of earlier requests wait to be received *)
Definition behind (s : st) : Prop :=
  s_queue s <> [] /\ forall m, In m (s_queue s) -> 0 < m_seq m <= s_seq s.
