(** What a sequence of events (newest first) must look like, in terms of the
    events alone. *)
From Coq Require Import List NArith Bool.
From Verif Require Import LifeModel.
Import ListNotations.
Local Open Scope N_scope.

Definition owner_eqb (a b : owner) : bool :=
  match a, b with
  | Main, Main => true
  | Own p, Own q | Offload p, Offload q => p =? q
  | _, _ => false
  end.

(** Where an interface stands: decided by the last event about it *)
Inductive stage := Closed | Opened | Running | Stopped.
Fixpoint stage_of (o : owner) (tr : list event) : stage :=
  match tr with
  | [] => Closed
  | e :: r =>
      match e with
      | EOpen o' => if owner_eqb o o' then Opened else stage_of o r
      | EUp o' => if owner_eqb o o' then Running else stage_of o r
      | EDown o' => if owner_eqb o o' then Stopped else stage_of o r
      | EClose o' => if owner_eqb o o' then Closed else stage_of o r
      | _ => stage_of o r
      end
  end.

(** Is peer [p] connected, as far as scripts were told? *)
Fixpoint connected (p : N) (tr : list event) : bool :=
  match tr with
  | [] => false
  | EEst q :: r => if p =? q then true else connected p r
  | EDis q :: r => if p =? q then false else connected p r
  | _ :: r => connected p r
  end.

(** Some interface that carries the packets of peer [p] is up *)
Definition carried (p : N) (tr : list event) : Prop :=
  stage_of Main tr = Running \/ stage_of (Own p) tr = Running \/ stage_of (Offload p) tr = Running.

(** Nothing is open and nobody connected *)
Definition quiet (tr : list event) : Prop :=
  (forall o, stage_of o tr = Closed) /\ (forall p, connected p tr = false).

(** A peer has at most one interface *)
Definition other (o : owner) : list owner :=
  match o with Main => [] | Own p => [Offload p] | Offload p => [Own p] end.

(** May [e] come after the events [r]? *)
Definition legal (e : event) (r : list event) : Prop :=
  ~ In EPostDown r /\
  match e with
  | EPreUp => r = []
  | EReady => In EPreUp r /\ ~ In EReady r /\ forall o, ~ In (EUp o) r
  | EOpen o => In EPreUp r /\ stage_of o r = Closed /\ forall o', In o' (other o) -> stage_of o' r = Closed
  | EUp o => In EReady r /\ stage_of o r = Opened
  | EDown o => stage_of o r = Running /\
               (o = Main -> forall p, stage_of (Own p) r = Closed /\ stage_of (Offload p) r = Closed /\ connected p r = false)
  | EClose o => stage_of o r = Stopped
  | EEst p => connected p r = false /\ carried p r
  | EDis p => connected p r = true
  | EPostDown => In EPreUp r /\ quiet r
  end.
Fixpoint lawful (tr : list event) : Prop :=
  match tr with [] => True | e :: r => legal e r /\ lawful r end.

(** How often a script has run *)
Definition event_eqb (a b : event) : bool :=
  match a, b with
  | EPreUp, EPreUp | EReady, EReady | EPostDown, EPostDown => true
  | EOpen o, EOpen o' | EUp o, EUp o' | EDown o, EDown o' | EClose o, EClose o' => owner_eqb o o'
  | EEst p, EEst q | EDis p, EDis q => p =? q
  | _, _ => false
  end.
Definition count (e : event) (tr : list event) : nat := length (filter (event_eqb e) tr).
