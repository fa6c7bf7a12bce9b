(** What the theorem about crashes says, without the model's helpers.

    A crash is a call of [exit_bug] ([Bug]) or an access outside an object or to a
    freed one ([UB]).  The program may still stop with [exit_fatal]. *)
From Verif Require Import Base BufferModel MethodModel HandshakeModel HandshakeSpec NodeModel.
Local Open Scope Z_scope.

Definition crashes {A} (r : res A) : Prop := r = Bug \/ r = UB.

(** [d] is a handshake packet that names [key] as its sender *)
Definition names_sender (d key : bytes) : Prop :=
  exists pkt h, (pkt = d \/ pkt = skipn 12 d) /\ parse_tlvs pkt = Ok (Some h) /\ value pkt h R_SENDER_KEY = Some key.

(** the time of a peer's next handshake has come at [now] *)
Definition handshake_due (now : Z) (p : peer) : Prop := exists t, p_next_hs p = Some t /\ t <= now.

(** The two kinds of events that can crash the program:
    - the timer of a peer that has no remotes and no session and is due for a handshake;
    - a handshake on the socket opened for one peer (used when no bind address fits)
      that names another peer as its sender. *)
Definition risky (n : node) (dt : N) (ev : event) : Prop :=
  match ev with
  | EvTask pid => exists p, In p (n_peers n) /\ p_id p = pid /\ p_remotes p = [] /\ p_state p <> Established /\ handshake_due (n_now n + Z.of_N dt) p
  | EvRecv (SDyn o _) _ _ d => exists q, In q (n_peers n) /\ p_id q <> o /\ names_sender d (p_key q)
  | _ => False
  end.

(** no event of an execution is risky in the state it is handled in *)
Definition no_risky (P : params) (now : N) (orc : list N) (static dirs : list pconf) (evs : list (N * event)) : Prop :=
  forall evs1 dt ev evs2 n, evs = evs1 ++ (dt, ev) :: evs2 -> execute P now orc static dirs evs1 = Ok n -> ~ risky n dt ev.
