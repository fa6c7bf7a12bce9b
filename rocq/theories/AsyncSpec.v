(** What delivery of the results of helper threads means *)
From Verif Require Import Base AddrModel AsyncModel.
Local Open Scope N_scope.

(** The jobs started, in order *)
Fixpoint jobs (es : list aevent) : list job :=
  match es with
  | [] => []
  | EStart j :: es => j :: jobs es
  | _ :: es => jobs es
  end.

(** An entry of getaddrinfo can be used if it is an IPv4 or IPv6 address.  What it stands
    for: the fields at their places of struct sockaddr_in and sockaddr_in6; a v4-mapped
    IPv6 address stands for the IPv4 address. *)
Definition usable (raw : bytes) : bool :=
  (Nat.leb (length raw) 28 && match raw with 2 :: 0 :: _ | 10 :: 0 :: _ => true | _ => false end)%bool.
Definition field (raw : bytes) (off n : nat) : bytes := map (fun i => nth i raw 0) (seq off n).
Definition means (raw : bytes) : saddr :=
  match raw with
  | 2 :: _ => AInet (field raw 4 4) (field raw 2 2)
  | _ =>
      let ip := field raw 8 16 in
      if forallb (fun b => b =? 0) (firstn 10 ip) && forallb (fun b => b =? 255) (firstn 2 (skipn 10 ip))
      then AInet (skipn 12 ip) (field raw 2 2)
      else AInet6 ip (field raw 2 2) (field raw 4 4) (field raw 24 4)
  end.

(** The result of a job *)
Definition outcome (j : option job) (a : answer) : list call :=
  match j, a with
  | Some (JResolve pid remote), Addresses l _ => [CResolve pid remote (map means (filter usable l))]
  | Some (JVerify pid sock local remote data), Verdict ok => [CVerify ok pid sock local remote data]
  | _, _ => []
  end.

(** The results sent, in order: those of threads and those of signal handlers *)
Definition sent_by (js : list job) (e : aevent) : list call :=
  match e with
  | EDone t a true => outcome (nth_error js t) a
  | ESignal true => [CNop]
  | _ => []
  end.
Definition sent (es : list aevent) : list call := flat_map (sent_by (jobs es)) es.

(** The threads that ended *)
Definition ended (es : list aevent) : list nat :=
  flat_map (fun e => match e with EDone t _ _ => [t] | _ => [] end) es.

(** Values fit the types of the C program *)
Definition job_ok (j : job) : Prop :=
  match j with
  | JResolve pid remote => pid < 2 ^ 64 /\ remote < 2 ^ 64
  | JVerify pid sock local remote data =>
      pid < 2 ^ 64 /\ sock < 2 ^ 64 /\ swf local /\ swf remote /\
      (forall a f, a = local \/ a = remote -> a = AOther f -> f < 2 ^ 16 /\ f <> 0 /\ f <> 2 /\ f <> 10) /\
      wf_bytes data /\ N.of_nat (80 + length data) < 2 ^ 64
  end.
Definition answer_ok (a : answer) : Prop :=
  match a with
  | Addresses l junk => Forall (fun raw => wf_bytes raw /\ (2 <= length raw)%nat) l /\ N.of_nat (24 + length l * 28) < 2 ^ 64
  | Verdict _ => True
  end.
Definition event_ok (e : aevent) : Prop :=
  match e with
  | EStart j => job_ok j
  | EDone _ a _ => answer_ok a
  | _ => True
  end.
