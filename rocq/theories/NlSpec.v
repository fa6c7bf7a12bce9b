(** * Netlink messages: what requests and replies look like and mean

    The format is that of netlink(7) and of the kernel's include/uapi/linux/netlink.h,
    genetlink.h and l2tp.h, in the byte order of the host. *)

From Coq Require Import List NArith ZArith Bool.
From Verif Require Import NlModel.
From Verif Require L2tpModel.
Import ListNotations.
Local Open Scope Z_scope.

Module NlSpec.

(** ** The format *)

(** A number in [k] bytes *)
Definition digit (z : Z) (i : nat) : N := Z.to_N (z / 256 ^ Z.of_nat i mod 256).
Definition num (le : bool) (k : nat) (z : Z) : list N :=
  let l := map (digit z) (seq 0 k) in if le then l else rev l.
Definition len (l : list N) : Z := Z.of_nat (length l).
(** Zeros up to a multiple of 4 *)
Definition pad (l : list N) : list N := repeat 0%N (Z.to_nat ((- len l) mod 4)).

(** An attribute, a message, a message of the generic family *)
Definition attr_bytes (le : bool) (a : Z * list N) : list N :=
  num le 2 (4 + len (snd a)) ++ num le 2 (fst a) ++ snd a ++ pad (snd a).
Definition msg_bytes (le : bool) (type flags seq pid : Z) (body : list N) : list N :=
  num le 4 (16 + len body) ++ num le 2 type ++ num le 2 flags ++ num le 4 seq ++ num le 4 pid ++ body.
Definition genl_bytes (le : bool) (cmd version : Z) (attrs : list (Z * list N)) : list N :=
  [Z.to_N cmd; Z.to_N version; 0%N; 0%N] ++ concat (map (attr_bytes le) attrs).

(** ** Requests *)

(** The message type, the command and the attributes of a request *)
Definition kind (family_id : Z) (r : request) : Z :=
  match r with Family => 16 (* GENL_ID_CTRL *) | _ => family_id end.
Definition command (r : request) : Z :=
  match r with
  | Family => 3               (* CTRL_CMD_GETFAMILY *)
  | TunnelCreate _ _ => 1     (* L2TP_CMD_TUNNEL_CREATE *)
  | SessionCreate _ _ => 5    (* L2TP_CMD_SESSION_CREATE *)
  | SessionGet _ => 8         (* L2TP_CMD_SESSION_GET *)
  | SessionDelete _ => 6      (* L2TP_CMD_SESSION_DELETE *)
  end.
Definition attributes (le : bool) (r : request) : list (Z * list N) :=
  match r with
  | Family => [(2, [108; 50; 116; 112; 0]%N)]     (* CTRL_ATTR_FAMILY_NAME: "l2tp" *)
  | TunnelCreate fd id =>
      [(9, num le 4 id);                          (* L2TP_ATTR_CONN_ID *)
       (10, num le 4 1);                          (* L2TP_ATTR_PEER_CONN_ID *)
       (7, [3%N]);                                (* L2TP_ATTR_PROTO_VERSION *)
       (2, num le 2 0);                           (* L2TP_ATTR_ENCAP_TYPE: UDP *)
       (23, num le 4 fd)]                         (* L2TP_ATTR_FD *)
  | SessionCreate id name =>
      [(9, num le 4 id);
       (11, num le 4 1);                          (* L2TP_ATTR_SESSION_ID *)
       (12, num le 4 1);                          (* L2TP_ATTR_PEER_SESSION_ID *)
       (1, num le 2 5);                           (* L2TP_ATTR_PW_TYPE: Ethernet *)
       (5, [0%N])]                                (* L2TP_ATTR_L2SPEC_TYPE: none *)
      ++ match name with Some s => [(8, s ++ [0%N])] | None => [] end     (* L2TP_ATTR_IFNAME *)
  | SessionGet id | SessionDelete id => [(9, num le 4 id); (11, num le 4 1)]
  end.
(** NLM_F_REQUEST and NLM_F_ACK are set *)
Definition request_bytes (le : bool) (family_id seq : Z) (r : request) : list N :=
  msg_bytes le (kind family_id r) 5 seq 0 (genl_bytes le (command r) 1 (attributes le r)).

(** The name of an interface fits in 16 bytes with its zero *)
Definition name_fits (r : request) : Prop :=
  match r with SessionCreate _ (Some s) => (length s < 16)%nat | _ => True end.

(** ** Replies *)

Inductive body :=
  | Attributes (type : Z) (hdr : list N) (attrs : list (Z * list N))   (* a family's message *)
  | Error (code : Z) (rest : list N)                    (* NLMSG_ERROR; 0 is an acknowledgement *)
  | Finish (rest : list N)                              (* NLMSG_DONE *)
  | Other (type : Z) (rest : list N).                   (* any other control message *)
Record reply := mk_reply { r_flags : Z; r_seq : Z; r_pid : Z; r_body : body }.

Definition body_type (b : body) : Z :=
  match b with Attributes t _ _ => t | Error _ _ => 2 | Finish _ => 3 | Other t _ => t end.
Definition body_bytes (le : bool) (b : body) : list N :=
  match b with
  | Attributes _ hdr attrs => hdr ++ concat (map (attr_bytes le) attrs)
  | Error c rest => num le 4 c ++ rest
  | Finish rest | Other _ rest => rest
  end.
Definition reply_bytes (le : bool) (r : reply) : list N :=
  msg_bytes le (body_type (r_body r)) (r_flags r) (r_seq r) (r_pid r) (body_bytes le (r_body r)).
(** What arrives at once: messages one after the other *)
Definition datagram (le : bool) (rs : list reply) : list N :=
  concat (map (fun r => reply_bytes le r ++ pad (reply_bytes le r)) rs).

Definition bytes (l : list N) : Prop := Forall (fun b => (b < 256)%N) l.
Definition attr_wf (a : Z * list N) : Prop :=
  0 <= fst a < 2 ^ 16 /\ len (snd a) + 4 < 2 ^ 16 /\ bytes (snd a).
Definition body_wf (b : body) : Prop :=
  match b with
  | Attributes t hdr attrs => 16 <= t < 2 ^ 16 /\ length hdr = 4%nat /\ bytes hdr /\ Forall attr_wf attrs
  | Error c rest => - 2 ^ 31 < c < 2 ^ 31 /\ (16 <= length rest)%nat /\ bytes rest
  | Finish rest => bytes rest
  | Other t rest => 0 <= t < 16 /\ t <> 2 /\ t <> 3 /\ bytes rest
  end.
Definition reply_wf (r : reply) : Prop :=
  0 <= r_flags r < 2 ^ 16 /\ 0 <= r_seq r < 2 ^ 32 /\ 0 <= r_pid r < 2 ^ 32 /\ body_wf (r_body r).

(** What an attribute does: nothing, set the result, or make the request fail *)
Inductive effect := Skip | Set_ (v : list N) | Fail (errno : Z).

(** The type of an attribute is in its lowest 14 bits.  CTRL_ATTR_FAMILY_ID is 1 and has
    two bytes; L2TP_ATTR_IFNAME is 8 and ends with a zero, only 15 bytes are used. *)
Fixpoint to_zero (l : list N) : list N :=
  match l with [] => [] | c :: l => if (c =? 0)%N then [] else c :: to_zero l end.
Definition meaning (r : request) (a : Z * list N) : effect :=
  let t := fst a mod 2 ^ 14 in
  match r with
  | Family => if t =? 1 then if (length (snd a) =? 2)%nat then Set_ (snd a) else Fail 34 else Skip
  | SessionGet _ =>
      if t =? 8 then
        match rev (snd a) with
        | [] => Fail 34
        | c :: _ => if (c =? 0)%N then Set_ (firstn 15 (to_zero (snd a))) else Fail 22
        end
      else Skip
  | _ => Skip
  end.

(** What a list of replies leads to: nothing yet, with the value found so far; or the end,
    with success or an error number *)
Inductive verdict := Open (v : option (list N)) | Success (v : option (list N)) | Failure (errno : Z) (v : option (list N)).

Fixpoint attrs_verdict (r : request) (l : list (Z * list N)) (v : option (list N)) : verdict :=
  match l with
  | [] => Open v
  | a :: l => match meaning r a with
              | Skip => attrs_verdict r l v
              | Set_ x => attrs_verdict r l (Some x)
              | Fail e => Failure e v
              end
  end.

(** A reply is for the request if its sequence number is the same; the number 0 is that of
    any request.  NLM_F_DUMP_INTR is bit 4. *)
Definition mine (seq : Z) (m : reply) : bool := (r_seq m =? 0) || (seq =? 0) || (r_seq m =? seq).
Definition reply_verdict (r : request) (seq : Z) (m : reply) (v : option (list N)) : verdict :=
  if negb (mine seq m) then Failure 71 v            (* EPROTO *)
  else if Z.testbit (r_flags m) 4 then Failure 4 v  (* EINTR *)
  else match r_body m with
  | Attributes _ _ attrs => attrs_verdict r attrs v
  | Error c _ => if c =? 0 then Success v else Failure (Z.abs c) v
  | Finish _ => Success v
  | Other _ _ => Open v
  end.
Fixpoint verdict_of (r : request) (seq : Z) (l : list reply) (v : option (list N)) : verdict :=
  match l with
  | [] => Open v
  | m :: l => match reply_verdict r seq m v with
              | Open v => verdict_of r seq l v
              | x => x
              end
  end.

(** What arrives: a failure, or a list of replies *)
Inductive arrival := Broken (errno : Z) | Replies (l : list reply).
(** [Success] without regard to the error is what [do_nl] makes of a failure to receive *)
Inductive final := Decided (v : verdict) | Lost (errno : Z) (v : option (list N)) | Pending.
Fixpoint outcome (r : request) (seq : Z) (l : list arrival) (v : option (list N)) : final :=
  match l with
  | [] => Pending
  | Broken e :: _ => Lost e v
  | Replies ms :: l =>
      match verdict_of r seq ms v with
      | Open v => outcome r seq l v
      | x => Decided x
      end
  end.

(** The number in two bytes *)
Definition u16_value (le : bool) (v : list N) : Z :=
  match v with [a; b] => if le then Z.of_N a + 256 * Z.of_N b else Z.of_N b + 256 * Z.of_N a | _ => -1 end.

(** What the function for a request returns, if [do_nl] returned [ok] and [v] was found;
    a name is in an array of 16 bytes *)
Definition answer_of (le : bool) (r : request) (ok : bool) (v : option (list N)) : answer :=
  match r with
  | Family => AFamily (match v with Some x => u16_value le x | None => -1 end)
  | SessionGet _ =>
      AName (match v with
             | Some x => if ok && negb (length x =? 0)%nat then Some (x ++ repeat 0%N (16 - length x)) else None
             | None => None
             end)
  | _ => ABool ok
  end.

(** ** Lengths in what arrives *)

(** The number in the [k] bytes at [p] *)
Definition value (le : bool) (l : list N) : Z :=
  fold_right (fun b z => Z.of_N b + 256 * z) 0 (if le then l else rev l).
Definition word (le : bool) (k : nat) (l : list N) (p : nat) : Z := value le (firstn k (skipn p l)).

(** A header is at the start, and after a message that fits *)
Inductive header_at (le : bool) (l : list N) : nat -> Prop :=
  | H_first : header_at le l 0
  | H_next : forall p q,
      header_at le l p -> (p + 16 <= length l)%nat ->
      16 <= word le 4 l p -> Z.of_nat p + word le 4 l p <= len l ->
      Z.of_nat q = Z.of_nat p + (word le 4 l p + 3) / 4 * 4 ->
      header_at le l q.

(** No length has its highest bit set, and no error is the lowest number there is *)
Definition tame (le : bool) (l : list N) : Prop :=
  forall p, header_at le l p -> (p + 16 <= length l)%nat ->
    word le 4 l p < 2 ^ 31 /\ ((p + 20 <= length l)%nat -> word le 2 l (p + 4) = 2 -> word le 4 l (p + 16) <> 2 ^ 31).

Definition arrives_tame (le : bool) (r : received) : Prop :=
  match r with RError _ => True | RData l => bytes l /\ tame le l end.

(** What the buffer of [n] bytes receives *)
Definition arrived (le : bool) (a : arrival) : received :=
  match a with Broken e => RError e | Replies ms => RData (datagram le ms) end.
Definition arrival_wf (le : bool) (n : nat) (a : arrival) : Prop :=
  match a with Broken _ => True | Replies ms => Forall reply_wf ms /\ (length (datagram le ms) <= n)%nat end.


(** What a request leads to *)
Definition run_agrees (le : bool) (r : request) (data : list N) (seq : Z) (x : final)
    (o : out (list N * Z * Z * answer)) : Prop :=
  match x with
  | Pending => o = Waiting
  | Lost e v => o = Done (data, seq, e, answer_of le r true v)
  | Decided (Success v) => exists e, o = Done (data, seq, e, answer_of le r true v)
  | Decided (Failure e v) => o = Done (data, seq, e, answer_of le r false v)
  | Decided (Open _) => False
  end.

(** No access outside of the buffer, no loop without end *)
Definition ends {A : Type} (o : out A) : Prop := match o with Done _ | Waiting => True | _ => False end.

(** ** The model of the offload sessions *)

(** A message in that model stands for a reply: [code] gives the bytes of the value *)
Definition stands_for (r : request) (code : N -> list N) (m : L2tpModel.msg) (a : arrival) : Prop :=
  exists x, a = Replies [x] /\ r_seq x = Z.of_N (L2tpModel.m_seq m) /\ Z.testbit (r_flags x) 4 = false /\
  match L2tpModel.m_body m with
  | L2tpModel.Data v => exists t h attrs, r_body x = Attributes t h attrs /\ attrs_verdict r attrs None = Open (option_map code v)
  | L2tpModel.Ack e => exists rest, r_body x = Error (- Z.of_N e) rest
  end.

End NlSpec.
