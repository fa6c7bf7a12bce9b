(** * C72: Netlink messages *)

From Coq Require Import List NArith ZArith Bool.
From Verif Require Import NlModel NlSpec NlProofs NlProofs2 NlProofs3 NlProofs4 NlProofs5.
From Verif Require L2tpModel.
Import ListNotations.
Import NlSpec.
Local Open Scope Z_scope.

(** What is sent for a request is one Netlink message with exactly the fields the request
    has, and the next sequence number; [n] is the size of the buffer it is built in *)
Theorem C72_requests : forall le fuel last fam n buf name sent rs errno r data seq errno' a,
  name_fits r -> (128 <= n)%nat ->
  run_request le fuel last fam n buf name sent rs errno r = Done (data, seq, errno', a) ->
  data = request_bytes le fam seq r /\ seq = (last + 1) mod 2 ^ 32.
Proof. exact sent_always. Qed.
Print Assumptions C72_requests.

(** The result is the one the replies have, whatever was in the buffer for them before *)
Theorem C72_reply : forall le fuel last fam n buf name errno r l,
  name_fits r -> (128 <= n)%nat -> size buf < 2 ^ 31 -> size buf < Z.of_nat fuel ->
  Forall (arrival_wf le (length buf)) l ->
  run_agrees le r (request_bytes le fam (u32 (last + 1)) r) (u32 (last + 1)) (outcome r (u32 (last + 1)) l None)
    (run_request le fuel last fam n buf name None (map (arrived le) l) errno r).
Proof. exact replies_ok. Qed.
Print Assumptions C72_reply.

(** Whatever arrives is read within the buffer, and comes to an end, unless a length has
    its highest bit set *)
Theorem C72_safe : forall le fuel last fam n buf name sent rs errno r,
  name_fits r -> (128 <= n)%nat -> bytes buf -> size buf mod 4 = 0 -> size buf < 2 ^ 31 -> size buf < Z.of_nat fuel ->
  Forall (arrives_tame le) rs ->
  ends (run_request le fuel last fam n buf name sent rs errno r).
Proof. exact request_safe. Qed.
Print Assumptions C72_safe.

(** A length with the highest bit set makes it read outside of the buffer ... *)
Theorem C72_overread_refuted : exists l, bytes l /\
  forall fuel last fam name errno, (2 <= fuel)%nat ->
    run_request true fuel last fam 4096 (repeat 0%N 4096) name None [RData l] errno Family = Undefined.
Proof. exact (ex_intro _ huge (conj (bytes_bool huge eq_refl) overread)). Qed.
Print Assumptions C72_overread_refuted.

(** ... or go on forever *)
Theorem C72_endless_refuted : exists l, bytes l /\
  forall fuel last fam name errno id,
    run_request true fuel last fam 4096 (repeat 0%N 4096) name None [RData l] errno (SessionDelete id) = Endless.
Proof. exact (ex_intro _ full (conj (bytes_bool full eq_refl) endless)). Qed.
Print Assumptions C72_endless_refuted.

(** A message whose length is no multiple of 4 can have an attribute that goes on after its
    end: the result depends on what was in the buffer before *)
Theorem C72_junk_refuted : exists l1 l2, bytes l1 /\ tame true l1 /\ bytes l2 /\ tame true l2 /\
  forall x : N, (x = 0 \/ x = 1)%N ->
    run_request true 4097 0 0 4096 (repeat x 4096) [] None [RData l1; RData l2] 0 Family
      = Done (request_bytes true 0 1 Family, 1, 0, AFamily (7 + 256 * Z.of_N x)).
Proof.
  exact (ex_intro _ cut (ex_intro _ ack (conj (bytes_bool cut eq_refl) (conj cut_tame
          (conj (bytes_bool ack eq_refl) (conj ack_tame cut_family)))))).
Qed.
Print Assumptions C72_junk_refuted.

(** A message that could not be sent counts as a request that worked *)
Theorem C72_success_refuted : forall le fuel last fam n buf name errno r rs e,
  name_fits r -> (128 <= n)%nat ->
  run_request le fuel last fam n buf name (Some e) rs errno r =
    Done (request_bytes le fam (u32 (last + 1)) r, u32 (last + 1), e, answer_of le r true None).
Proof. exact send_failed. Qed.
Print Assumptions C72_success_refuted.

(** The messages of the model of the offload sessions (C71) have the same result *)
Theorem C72_sessions : forall r code c seq q l, Forall2 (stands_for r code) q l -> L2tpModel.c_reliable c = true ->
  forall got s, L2tpModel.s_skerr s = 0%N ->
  match L2tpModel.receive c seq q got s with
  | L2tpModel.Done (ok, v) s' =>
      if ok then outcome r (Z.of_N seq) l (option_map code got) = Decided (Success (option_map code v))
      else outcome r (Z.of_N seq) l (option_map code got) = Decided (Failure (Z.of_N (L2tpModel.s_errno s')) (option_map code v))
  | L2tpModel.Hang => outcome r (Z.of_N seq) l (option_map code got) = Pending
  | _ => False
  end.
Proof. exact receive_refines. Qed.
Print Assumptions C72_sessions.

(** ** Examples *)

(** The kernel answers with the family 28 and other attributes, then acknowledges *)
Definition family_reply : reply :=
  mk_reply 0 1 77 (Attributes 16 [1; 2; 0; 0]%N [(2, [108; 50; 116; 112; 0]%N); (1, [28; 0]%N); (3, [1; 0; 0; 0]%N)]).
Definition family_ack : reply := mk_reply 0 1 77 (Error 0 (repeat 0%N 16)).

Example C72_nonvacuous :
  Forall (arrival_wf true 4096) [Replies [family_reply]; Replies [family_ack]] /\
  outcome Family 1 [Replies [family_reply]; Replies [family_ack]] None = Decided (Success (Some [28; 0]%N)) /\
  answer_of true Family true (Some [28; 0]%N) = AFamily 28.
Proof.
  split; [| split; reflexivity].
  repeat (apply Forall_cons || apply Forall_nil || split); try (apply bytes_bool; reflexivity); try reflexivity;
    try discriminate; apply Nat.leb_le; vm_compute; reflexivity.
Qed.

(** A session is named "ab" *)
Example C72_request_nonvacuous :
  request_bytes true 28 5 (SessionCreate 258 (Some [97; 98]%N)) =
    [68; 0; 0; 0; 28; 0; 5; 0; 5; 0; 0; 0; 0; 0; 0; 0;  5; 1; 0; 0;
     8; 0; 9; 0; 2; 1; 0; 0;  8; 0; 11; 0; 1; 0; 0; 0;  8; 0; 12; 0; 1; 0; 0; 0;
     6; 0; 1; 0; 5; 0; 0; 0;  5; 0; 5; 0; 0; 0; 0; 0;  7; 0; 8; 0; 97; 98; 0; 0]%N.
Proof. vm_compute. reflexivity. Qed.

Example C72_sessions_nonvacuous :
  Forall2 (stands_for Family (fun _ => [28; 0]%N))
    [L2tpModel.mk_msg 1 (L2tpModel.Data (Some 28%N)); L2tpModel.mk_msg 1 (L2tpModel.Ack 0)]
    [Replies [family_reply]; Replies [family_ack]].
Proof.
  constructor; [| constructor; [| constructor]].
  - eexists. split; [reflexivity |]. split; [reflexivity |]. split; [reflexivity |]. do 3 eexists. split; reflexivity.
  - eexists. split; [reflexivity |]. split; [reflexivity |]. split; [reflexivity |]. eexists. reflexivity.
Qed.
