(** What holding, configuring and giving back TUN/TAP interfaces means, in terms of the calls made. *)
From Coq Require Import Permutation String.
From Verif Require Import Base BufferModel SizeModel TunModel.

(** ** Descriptors and memory *)
Record world := mk_world { w_fds : list (N * bool) (* open descriptors, and whether they are polled *); w_blocks : list nat }.
(** [Wrong]: a mistake of the program; [Impossible]: the system reuses a descriptor or block that is in use *)
Inductive verdict : Type := Wrong | Impossible | Fine (w : world).

Definition fd_dec : forall x y : N * bool, {x = y} + {x <> y}.
Proof. decide equality; [apply Bool.bool_dec | apply N.eq_dec]. Defined.
Fixpoint take {A} (dec : forall x y : A, {x = y} + {x <> y}) (x : A) (l : list A) : option (list A) :=
  match l with
  | [] => None
  | y :: l => if dec x y then Some l else match take dec x l with Some l' => Some (y :: l') | None => None end
  end.
Definition isopen (fd : N) (w : world) : bool := existsb (fun x => N.eqb (fst x) fd) (w_fds w).
Definition inuse (b : nat) (w : world) : bool := existsb (Nat.eqb b) (w_blocks w).
(** [x] replaced by [l] *)
Definition change (x : N * bool) (l : list (N * bool)) (w : world) : verdict :=
  match take fd_dec x (w_fds w) with Some rest => Fine (mk_world (l ++ rest) (w_blocks w)) | None => Wrong end.

Definition follow (v : verdict) (c : call) : verdict :=
  match v with
  | Wrong => Wrong
  | Impossible => Impossible
  | Fine w =>
      match c with
      | Open _ (Some fd) => if isopen fd w then Impossible else Fine (mk_world ((fd, false) :: w_fds w) (w_blocks w))
      | Register fd => change (fd, false) [(fd, true)] w
      | Unregister fd => change (fd, true) [(fd, false)] w
      | Close fd _ => change (fd, false) [] w
      | SetIff fd _ _ _ _ | GetInfo fd _ | SetInfo fd _ _ | SetHead fd _ | NameOf fd _ =>
          if isopen fd w then Fine w else Wrong
      | Alloc b => if inuse b w then Impossible else Fine (mk_world (w_fds w) (b :: w_blocks w))
      | Free b => match take Nat.eq_dec b (w_blocks w) with Some rest => Fine (mk_world (w_fds w) rest) | None => Wrong end
      | Open _ None | GetMtu _ _ | SetMtu _ _ _ | NameToIndex _ _ | Destroy _ _ => Fine w
      end
  end.
Definition replay (l : list call) : verdict := fold_left follow l (Fine (mk_world [] [])).

(** Any sequence of interfaces being opened and closed; [held]: those in use *)
Inductive run (E : environment) (os : platform) (m : mode) : list iface -> st -> Prop :=
| run_start : run E os m [] (mk_st 0 [])
| run_open held s name mtu r s' :
    run E os m held s -> iface_open E os m name mtu s = Ok (r, s') ->
    run E os m (match r with Some i => i :: held | None => held end) s'
| run_close held1 i held2 s s' :
    run E os m (held1 ++ i :: held2) s -> iface_close E os i s = Ok (tt, s') -> run E os m (held1 ++ held2) s'.

Definition its_fd (i : iface) : list (N * bool) := match i_fd i with Some fd => [(fd, true)] | None => [] end.
Definition its_blocks (i : iface) : list nat := i_block i :: match i_name i with Some (b, _) => [b] | None => [] end.
Definition accounts (l : list call) (held : list iface) : Prop :=
  match replay l with
  | Wrong => False
  | Impossible => True
  | Fine w => Permutation (w_fds w) (flat_map its_fd held) /\ Permutation (w_blocks w) (flat_map its_blocks held)
  end.

(** ** Configuration *)
Definition device (os : platform) (m : mode) (name : bytes) : bytes :=
  match os with
  | Linux => text "/dev/net/tun"
  | Android => text "/dev/tun"
  | _ => text "/dev/" ++
         match name with [] => match m with MTun => text "tun" | _ => text "tap" end | _ => firstn 15 name end
  end.
Definition named_for (m : mode) (name : bytes) : Prop :=
  firstn 3 name = match m with MTun => text "tun" | _ => text "tap" end.
(** the names the systems accept *)
Definition acceptable (os : platform) (m : mode) (name : bytes) : Prop :=
  match os with
  | Linux | Android => True
  | FreeBSD => name = [] \/ (4 <= length name /\ named_for m name)
  | _ => name <> [] /\ named_for m name
  end.
(** the calls [l] give interface [n], open as [fd], this MTU *)
Definition gives_mtu (os : platform) (fd : N) (n : bytes) (mtu : N) (l : list call) : Prop :=
  match os with
  | Linux | Android => In (GetMtu n (Some mtu)) l \/ In (SetMtu n mtu true) l
  | FreeBSD | OpenBSD => In (SetInfo fd mtu true) l
  | _ => In (SetMtu n mtu true) l
  end.
Definition gives_name (os : platform) (m : mode) (fd : N) (name n : bytes) (l : list call) : Prop :=
  match os with
  | Linux | Android =>
      exists r, In (SetIff fd (firstn 15 name) (match m with MTun => false | _ => true end) true (Some r)) l /\ n = firstn 15 r
  | FreeBSD => exists r, In (NameOf fd (Some r)) l /\ n = firstn 15 r
  | _ => n = firstn 15 name
  end.
(** the prefix to packets is asked for; OpenBSD always has it *)
Definition gives_prefix (os : platform) (m : mode) (fd : N) (l : list call) : Prop :=
  match os, m with (FreeBSD | NetBSD), MTun => In (SetHead fd true) l | _, _ => True end.
(** FreeBSD: whether the interface has to be removed *)
Definition created (os : platform) (name : bytes) (l : list call) : Prop :=
  os = FreeBSD /\ (name = [] \/ In (NameToIndex name false) l).
Definition destroyed (n : bytes) (l : list call) : Prop := exists ok, In (Destroy n ok) l.

Definition failed (c : call) : Prop :=
  match c with
  | Open _ None | SetIff _ _ _ _ None | GetMtu _ None | SetMtu _ _ false | SetInfo _ _ false | SetHead _ false => True
  | _ => False
  end.
(** The answers that end the program *)
Definition exits (E : environment) (os : platform) : Prop :=
  match os with
  | Linux | Android => exists n, e_fd E n = None
  | FreeBSD => (exists n, e_name E n = None) \/ (exists n, e_ok E n = false)
  | OpenBSD => exists n, e_ok E n = false
  | _ => False
  end.

(** ** Packets *)
Definition family (os : platform) (packet : bytes) : option N :=
  match packet with
  | [] => None
  | b :: _ => if N.eqb (b / 16) 4 then Some 2%N
              else if N.eqb (b / 16) 6 then Some (match os with FreeBSD => 28 | NetBSD | OpenBSD => 24 | MacOS => 30 | _ => 10 end)%N
              else None
  end.
(** whether packets have four more bytes on the device *)
Definition with_family (os : platform) (m : mode) : Prop :=
  m = MTun /\ (os = FreeBSD \/ os = OpenBSD \/ os = NetBSD).
(** what has to be written for a packet *)
Definition to_write (os : platform) (m : mode) (packet : bytes) (d : option bytes) : Prop :=
  (packet = [] -> d = None) /\
  (packet <> [] -> ~ with_family os m -> d = Some packet) /\
  (packet <> [] -> with_family os m ->
     match family os packet with None => d = None | Some af => d = Some ([0; 0; 0; af]%N ++ packet) end).
