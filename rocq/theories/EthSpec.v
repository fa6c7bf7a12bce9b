(** Forwarding of frames, specified with a finite map of addresses *)
From Verif Require Import Base BufferModel EthModel.

Record spec_node := mk_spec_node {
  z_now : Z;
  z_map : bytes -> option (option N * Z);  (* who used the address last (None: this node), and until when to remember *)
  z_peers : list (N * bool);
  z_next : N
}.
Definition bytes_dec : forall a b : bytes, {a = b} + {a <> b} := list_eq_dec N.eq_dec.

(** The time an address is remembered *)
Definition FIVE_MINUTES : Z := 300000%Z.

Definition unicast (a : bytes) : bool := N.even (nth 0 a 0%N).
Definition spec_learn (s : spec_node) (p : option N) (a : bytes) : spec_node :=
  if unicast a then
    mk_spec_node (z_now s) (fun b => if bytes_dec b a then Some (p, z_now s + FIVE_MINUTES)%Z else z_map s b) (z_peers s) (z_next s)
  else s.
(** Forget the addresses of a peer that is disconnected *)
Definition spec_reset (s : spec_node) (p : N) : spec_node :=
  mk_spec_node (z_now s)
    (fun b => match z_map s b with Some (Some q, t) => if N.eq_dec q p then None else Some (Some q, t) | o => o end)
    (map (fun q => if N.eq_dec (fst q) p then (p, false) else q) (z_peers s)) (z_next s).

(** Destinations of a frame: all established peers but the source, or the one that used the address *)
Definition is_source (source : option N) (p : N) : bool := match source with Some q => N.eqb q p | None => false end.
Definition all_others (s : spec_node) (source : option N) : list N :=
  map fst (filter (fun q => snd q && negb (is_source source (fst q)))%bool (z_peers s)).
Definition dests (s : spec_node) (f : bytes) (source : option N) : list N :=
  if unicast (firstn 6 f) then
    match z_map s (firstn 6 f) with
    | None => all_others s source
    | Some (None, _) => []
    | Some (Some d, _) => if is_source source d then [] else [d]
    end
  else all_others s source.

(** Sending: peers whose session has expired are disconnected, the others get the frame *)
Definition deliver (expired : list N) (s : spec_node) (l : list N) : spec_node * list N :=
  (fold_left spec_reset (filter (fun p => existsb (N.eqb p) expired) l) s, filter (fun p => negb (existsb (N.eqb p) expired)) l).

Definition is_established (l : list (N * bool)) (p : N) : Prop := In (p, true) l.
Definition spec_frame (expired : list N) (s : spec_node) (f : bytes) (source : option N) (forward : bool) : spec_node * list N :=
  if Nat.ltb (length f) 14 then (s, [])
  else
    let s := spec_learn s source (firstn 6 (skipn 6 f)) in
    if forward then deliver expired s (dests s f source) else (s, []).

Definition spec_step (e : eth_event) (s : spec_node) : spec_node * list N :=
  match e with
  | FTime dt => (mk_spec_node (z_now s + Z.of_N dt) (z_map s) (z_peers s) (z_next s), [])
  | FRecv forward p f expired => spec_frame expired s f (Some p) forward
  | FIface None f expired => spec_frame expired s f None true
  | FIface (Some d) f expired => deliver expired s (map fst (filter (fun q => N.eqb (fst q) d && snd q)%bool (z_peers s)))
  | FReset p => (spec_reset s p, [])
  | FEstablish p => (mk_spec_node (z_now s) (z_map s) (map (fun q => if N.eq_dec (fst q) p then (p, true) else q) (z_peers s)) (z_next s), [])
  | FAdd => (mk_spec_node (z_now s) (z_map s) (z_peers s ++ [(z_next s, false)]) (z_next s + 1)%N, [])
  | FDelete p =>
      let s := spec_reset s p in
      (mk_spec_node (z_now s) (z_map s) (filter (fun q => negb (N.eqb (fst q) p)) (z_peers s)) (z_next s), [])
  | FCleanup =>
      (mk_spec_node (z_now s)
         (fun b => match z_map s b with Some (o, t) => if Z_le_dec t (z_now s) then None else Some (o, t) | None => None end)
         (z_peers s) (z_next s), [])
  end.
Definition spec_init : spec_node := mk_spec_node 0 (fun _ => None) [] 1.
Definition spec_run (h : list eth_event) (s : spec_node) : spec_node := fold_left (fun s e => fst (spec_step e s)) h s.

(** Frames are received from established peers only *)
Definition possible (s : eth_node) (e : eth_event) : Prop :=
  match e with FRecv _ p _ _ => In (p, true) (m_peers s) | _ => True end.

(** States of runs, and runs from one state to another all of whose steps satisfy a predicate *)
Inductive eth_path (ok : eth_node -> eth_event -> eth_node -> Prop) (s : eth_node) : eth_node -> Prop :=
| eth_path_here : eth_path ok s s
| eth_path_step : forall s1 e s2 out, eth_path ok s s1 -> possible s1 e -> eth_step e s1 = Ok (s2, out) -> ok s1 e s2 -> eth_path ok s s2.
Definition eth_reachable (s : eth_node) : Prop := eth_path (fun _ _ _ => True) eth_init s.

(** The event is a frame with the given source address, used by the given owner: a peer, or this node *)
Definition frame_from (e : eth_event) (owner : option N) (a : bytes) : Prop :=
  match e with
  | FRecv _ p f _ => owner = Some p /\ 14 <= length f /\ firstn 6 (skipn 6 f) = a
  | FIface None f _ => owner = None /\ 14 <= length f /\ firstn 6 (skipn 6 f) = a
  | _ => False
  end.
(** Steps without frames from an address *)
Definition silent (a : bytes) (_ : eth_node) (e : eth_event) (_ : eth_node) : Prop := forall o, ~ frame_from e o a.
(** Steps after which the owner is still connected *)
Definition connected (owner : option N) (s : eth_node) : Prop := match owner with Some p => In (p, true) (m_peers s) | None => True end.
Definition quiet (owner : option N) (a : bytes) (s : eth_node) (e : eth_event) (s' : eth_node) : Prop := silent a s e s' /\ connected owner s'.
(** The event is a frame to be sent to peers: from a peer (with forwarding) or from the interface *)
Definition frame_to (e : eth_event) (source : option N) (f : bytes) (expired : list N) : Prop :=
  14 <= length f /\
  match e with
  | FRecv fw p f' x => fw = true /\ source = Some p /\ f' = f /\ x = expired
  | FIface None f' x => source = None /\ f' = f /\ x = expired
  | _ => False
  end.
(** Connected peers without an expired session, except the source *)
Definition flooded (s : eth_node) (source : option N) (expired : list N) (out : list N) : Prop :=
  NoDup out /\ forall p, In p out <-> In (p, true) (m_peers s) /\ source <> Some p /\ ~ In p expired.

(** Where the frames of a run go *)
Fixpoint eth_outs (h : list eth_event) (s : eth_node) : res (list (list N)) :=
  match h with
  | [] => Ok []
  | e :: h => do r <- eth_step e s; do l <- eth_outs h (fst r); Ok (snd r :: l)
  end.
Fixpoint spec_outs (h : list eth_event) (z : spec_node) : list (list N) :=
  match h with
  | [] => []
  | e :: h => snd (spec_step e z) :: spec_outs h (fst (spec_step e z))
  end.
Fixpoint spec_possible (h : list eth_event) (z : spec_node) : Prop :=
  match h with
  | [] => True
  | e :: h => match e with FRecv _ p _ _ => In (p, true) (z_peers z) | _ => True end /\ spec_possible h (fst (spec_step e z))
  end.
