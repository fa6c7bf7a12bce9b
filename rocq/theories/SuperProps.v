(** Property theorems C82: programs that watch over fastd. *)
From Verif Require Import Base BufferModel NameModel ShellSpec SuperModel SuperSpec SuperProofs.
From Coq Require Import String.
Local Open Scope N_scope.

(** ** C82  systemd is told once that fastd is ready; Android's service protects every socket *)

(** The socket named by NOTIFY_SOCKET (of which at most 108 bytes count) is told; nothing is accessed out of bounds; the
    descriptor is always closed again. *)
Theorem C82_notify :
  forall var sock_ok conn_ok pid, (forall s, var = Some s -> c_string s) -> pid < 2 ^ 32 ->
    exists tr, notify_systemd var sock_ok conn_ok pid = Ok tr /\
      notified (match var with Some s => meant (firstn 108 s) | None => None end) sock_ok conn_ok pid tr.
Proof. exact super_notify. Qed.
Print Assumptions C82_notify.

(** What becomes of a socket that was opened: it is used exactly if the service says so. *)
Theorem C82_answer :
  forall pid d start fd a, proper_answer a ->
    astep true pid d (OpBind start fd a) =
    match an_sent a, an_read a with
    | true, Some [] => UB
    | true, Some (c :: _) =>
        if c =? 88 then Ok (d, [SendFd (d_ctrl d) (d_conn d) fd; Uses fd])
        else if start then Fatal else Ok (d, [SendFd (d_ctrl d) (d_conn d) fd; Closes fd])
    | _, _ => Fatal
    end.
Proof. exact super_answer. Qed.
Print Assumptions C82_answer.

(** No socket is used before the service was asked to protect it and has agreed. *)
Theorem C82_protected :
  forall pid, pid < 2 ^ 32 -> forall l d d' tr, Forall proper_op l -> arun true pid d l = Ok (d', tr) ->
    forall tr1 fd tr2, tr = tr1 ++ Uses fd :: tr2 ->
      (exists start a, In (OpBind start fd a) l /\ granted a) /\ exists tr0 over conn, tr1 = tr0 ++ [SendFd over conn fd].
Proof. exact super_protected. Qed.
Print Assumptions C82_protected.

(** The interface is the descriptor received from the service, which is told the process number. *)
Theorem C82_interface :
  forall pid d sock conn recv w, pid < 2 ^ 32 -> proper_op (OpIface sock conn recv w) ->
    exists t, decimal t pid /\
      match sock with
      | Some c =>
          if conn && Z.eqb w (Z.of_nat (List.length t)) then
            (exists fd, holds recv fd /\ astep true pid d (OpIface sock conn recv w) = Ok (mk_dev c true, [SendPid c true t; Tun fd])) \/
            ((forall fd, ~ holds recv fd) /\ astep true pid d (OpIface sock conn recv w) = Bug)
          else astep true pid d (OpIface sock conn recv w) = Fatal
      | None => astep true pid d (OpIface sock conn recv w) = Fatal
      end.
Proof. exact super_iface. Qed.
Print Assumptions C82_interface.

(** If no addresses to bind to are configured, everything is sent to the service. *)
Theorem C82_over :
  forall pid iface later d' tr, pid < 2 ^ 32 -> in_order [] iface later -> Forall proper_op (iface :: later) ->
    arun true pid first_dev (iface :: later) = Ok (d', tr) ->
    exists c conn recv w, iface = OpIface (Some c) conn recv w /\
      forall e, In e tr -> match e with SendFd o k _ | SendPid o k _ => o = c /\ k = true | _ => True end.
Proof. exact super_over. Qed.
Print Assumptions C82_over.

(** Without the integration no service is needed. *)
Theorem C82_off :
  forall pid d fd start a, astep false pid d (OpBind start fd a) = Ok (d, [Uses fd]).
Proof. exact super_off. Qed.
Print Assumptions C82_off.

(** ** Examples *)

Definition ex_fd (fd : N) : bytes := le_bytes 8 20 ++ le_bytes 4 1 ++ le_bytes 4 1 ++ le_bytes 4 fd.
Definition yes : answer := mk_answer true (Some [88]).
Definition no : answer := mk_answer true (Some [69]).

Lemma ex_carries fd : fd < 2 ^ 31 -> carries (ex_fd fd) fd.
Proof. intros H. split; [exact H|reflexivity]. Qed.

Example C82_nonvacuous_notify :
  c_string (str "/run/systemd/notify") /\
  match notify_systemd (Some (str "/run/systemd/notify")) true true 4711 with
  | Ok [NSocket; NConnect sa; NSend msg; NClose] =>
      denotes sa = Some (Path (str "/run/systemd/notify")) /\ msg = str "READY=1" ++ [10] ++ str "MAINPID=4711"
  | _ => False
  end /\
  match notify_systemd (Some (str "@notify")) true false 4711 with
  | Ok [NSocket; NConnect sa; NClose] => denotes sa = Some (Abstract (str "notify"))
  | _ => False
  end.
Proof.
  split; [|split; [vm_compute; split; reflexivity|vm_compute; reflexivity]]. split.
  - assert (H : wf_bytesb (str "/run/systemd/notify") = true) by (vm_compute; reflexivity).
    unfold wf_bytesb in H. rewrite forallb_forall in H. apply Forall_forall. intros x Hx. specialize (H x Hx).
    unfold is_byteb in H. unfold is_byte. lia.
  - intros x Hx E. subst x. vm_compute in Hx. repeat (destruct Hx as [Hx|Hx]; [discriminate Hx|]). exact Hx.
Qed.

Example C82_nonvacuous :
  exists d tr,
    in_order [] (OpIface (Some 5) true (Some (ex_fd 7)) 4) [OpBind false 8 yes; OpBind false 9 no] /\
    Forall proper_op [OpIface (Some 5) true (Some (ex_fd 7)) 4; OpBind false 8 yes; OpBind false 9 no] /\
    arun true 4711 first_dev [OpIface (Some 5) true (Some (ex_fd 7)) 4; OpBind false 8 yes; OpBind false 9 no] = Ok (d, tr) /\
    tr = [SendPid 5 true (str "4711"); Tun 7; SendFd 5 true 8; Uses 8; SendFd 5 true 9; Closes 9].
Proof.
  exists (mk_dev 5 true), [SendPid 5 true (str "4711"); Tun 7; SendFd 5 true 8; Uses 8; SendFd 5 true 9; Closes 9].
  split.
  - split; [constructor|]. split; [exists (Some 5), true, (Some (ex_fd 7)), 4%Z; reflexivity|].
    repeat constructor; eexists; eexists; reflexivity.
  - split; [|split; [vm_compute; reflexivity|reflexivity]].
    constructor; [|constructor; [|constructor; [|constructor]]]; cbn [proper_op]; unfold proper_answer; cbn [an_read yes no List.length]; try lia.
    split; [|lia]. right. exists 7. apply ex_carries. lia.
Qed.

(** ** What does not hold *)

(** A longer name is not refused: some other socket is told. *)
Theorem C82_notify_long_refuted :
  forall s conn_ok pid tr, c_string s -> (108 < List.length s)%nat -> notify_systemd (Some s) true conn_ok pid = Ok tr ->
    meant s <> None -> exists sa, In (NConnect sa) tr /\ denotes sa <> meant s.
Proof. exact super_notify_long. Qed.
Print Assumptions C82_notify_long_refuted.

Example C82_nonvacuous_long :
  exists tr, notify_systemd (Some (47 :: repeat 97 108)) true true 1 = Ok tr /\ meant (47 :: repeat 97 108) <> None.
Proof. eexists. split; [vm_compute; reflexivity|discriminate]. Qed.

(** Sockets with an address in the configuration are bound before the service is connected: their descriptors go to
    descriptor 0, if the program does not end at once. *)
Theorem C82_early_refuted :
  forall pid fd a rest iface later d' tr, pid < 2 ^ 32 -> in_order (OpBind true fd a :: rest) iface later ->
    Forall proper_op (OpBind true fd a :: rest ++ iface :: later) ->
    arun true pid first_dev (OpBind true fd a :: rest ++ iface :: later) = Ok (d', tr) -> In (SendFd 0 false fd) tr.
Proof. exact super_early. Qed.
Print Assumptions C82_early_refuted.

(** If the service closes the connection instead of answering, an uninitialised byte decides. *)
Theorem C82_closed_refuted :
  forall pid d start fd, astep true pid d (OpBind start fd (mk_answer true (Some []))) = UB.
Proof. intros pid d start fd. exact (super_answer pid d start fd (mk_answer true (Some [])) (Nat.le_0_l 20)). Qed.
Print Assumptions C82_closed_refuted.

(** A message without a descriptor is not noticed: the program ends with an internal error. *)
Theorem C82_no_descriptor_refuted :
  exists pid d c w, astep true pid d (OpIface (Some c) true (Some []) w) = Bug.
Proof. exists 4711, first_dev, 5, 4%Z. vm_compute. reflexivity. Qed.
Print Assumptions C82_no_descriptor_refuted.
