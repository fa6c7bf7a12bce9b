(** Property theorems C08-C10, C12: the data methods, for every stream cipher
    and MAC. *)
From Verif Require Import Base NonceModel BufferModel MethodModel MethodSpec MethodProofs MethodProofs2.

(** ** C08  Payload encryption round-trips for every method *)

(** Both ends compute the same secret functions [sl]; the receiver's buffer
    holds the bytes the sender produced. Unless the packet is a duplicate, the
    output is the payload. *)
Theorem C08_round_trip :
  forall now sl cfS cfR cyS cyR sh sS sR bS gS out sS' bR gR age,
    computes cyS sl -> computes cyR sl -> total cyR sl ->
    cy_ivlen cyR = cy_ivlen cyS -> cy_mac_ivlen cyR = cy_mac_ivlen cyS ->
    s_compat sR = s_compat sS -> length (s_send sS) = 6 ->
    enc_ready cfS sh bS gS -> dec_ready cfR sh bR gR ->
    session_encrypt cfS cyS sh sS bS gS = Ok (Some (out, sS')) ->
    b_data bR = b_data out ->
    common_is_valid now sR = true ->
    is_nonce_valid now sR (s_send sS) = Some age ->
    exists o sR' reordered,
      session_decrypt now cfR cyR sh sR bR gR = Ok (DecOut o sR' reordered) /\
      match reorder_check now sR (s_send sS) age with
      | RUB => False
      | RDuplicate => sR' = sR /\ reordered = false /\ b_data o = []
      | RNew s1 => sR' = s1 /\ reordered = false /\ b_data o = b_data bS
      | RReordered s1 => sR' = s1 /\ reordered = true /\ b_data o = b_data bS
      end.
Proof. exact round_trip. Qed.
Print Assumptions C08_round_trip.

(** What is sent is the packet of the wire format. *)
Theorem C08_encrypt_seals :
  forall sl cf cy sh s b g,
    computes cy sl -> total cy sl -> length (s_send s) = 6 -> enc_ready cf sh b g ->
    exists out s',
      session_encrypt cf cy sh s b g = Ok (Some (out, s')) /\
      seal sl sh (cy_ivlen cy) (cy_mac_ivlen cy) (s_compat s) (s_send s) (b_data b) = Some (b_data out) /\
      length (b_data out) = length (b_data b) + provider_overhead sh /\
      s' = set_send s (increment_nonce (s_send s)).
Proof. exact encrypt_seals. Qed.
Print Assumptions C08_encrypt_seals.

Theorem C08_null_round_trip :
  forall compat ini v b mb,
    buf_wf mb b -> 1 <= b_off b ->
    exists out, null_encrypt {| n_initiator := ini; n_compat := compat; n_valid := v |} b = Ok out /\
      b_data out = packet_type compat :: b_data b /\
      forall r, b_data r = b_data out -> buf_wf mb r -> length (b_data r) = b_len r ->
        exists o, null_decrypt r = Ok o /\ b_data o = b_data b.
Proof. exact null_round_trip. Qed.
Print Assumptions C08_null_round_trip.

Theorem C08_l2tp_encrypt :
  forall cf b g,
    buf_wf (m_max_buffer cf) b -> 8 <= b_off b -> 0 < b_len b ->
    exists out, null_l2tp_encrypt cf b g = Ok out /\ b_data out = l2tp_header ++ b_data b.
Proof. exact l2tp_encrypt_data. Qed.
Print Assumptions C08_l2tp_encrypt.

Theorem C08_l2tp_decrypt :
  forall r mb p, buf_wf mb r -> b_data r = l2tp_header ++ p ->
    exists o, null_l2tp_decrypt r = Ok (Some o) /\ b_data o = p.
Proof. exact l2tp_decrypt_header. Qed.
Print Assumptions C08_l2tp_decrypt.

(** A concrete session: toy keystreams and MACs satisfy the hypotheses, and a
    5-byte payload travels from one end to the other with every method. *)
Definition ex_ks (iv : bytes) (i : nat) : N := ((le_val iv + 7 * N.of_nat i + 3) mod 256)%N.
Definition ex_digest (m : bytes) (n : nat) : option bytes :=
  Some (firstn 16 (m ++ N.of_nat n :: repeat 9%N 16)).
Definition ex_poly (m k : bytes) : bytes := firstn 16 (k ++ m ++ repeat 5%N 16).
Definition ex_sl : sealing :=
  {| sl_ks := ex_ks; sl_mac_ks := fun iv i => N.lxor (ex_ks iv i) 90; sl_digest := ex_digest; sl_poly := ex_poly |}.
Definition ex_cy : crypto :=
  {| cy_ivlen := 16; cy_crypt := fun iv x => Some (xor_ks (ex_ks iv) 0 x);
     cy_mac_ivlen := 8; cy_mac_crypt := fun iv x => Some (xor_ks (fun i => N.lxor (ex_ks iv i) 90) 0 x);
     cy_digest := ex_digest; cy_poly1305 := ex_poly |}.
Definition ex_cf : mcfg := {| m_encrypt_headroom := 32; m_max_buffer := 96 |}.
Definition ex_in : buf := {| b_mem := repeat 170%N 32 ++ [1;2;3;4;5]%N ++ repeat 187%N 59; b_off := 32; b_len := 5 |}.
Definition ex_recv (d : bytes) : buf :=
  {| b_mem := repeat 204%N 24 ++ d ++ repeat 221%N (72 - length d); b_off := 24; b_len := length d |}.
Definition ex_travel (sh : shape) : option bytes :=
  match session_encrypt ex_cf ex_cy sh (common_init 0 true false 0) ex_in (repeat 238%N 96) with
  | Ok (Some (out, _)) =>
      match session_decrypt 5 ex_cf ex_cy sh (common_init 0 false false 0) (ex_recv (b_data out)) (repeat 255%N 96) with
      | Ok (DecOut o _ _) => Some (b_data o)
      | _ => None
      end
  | _ => None
  end.

Example C08_nonvacuous_hyps :
  computes ex_cy ex_sl /\ total ex_cy ex_sl /\
  (forall sh, enc_ready ex_cf sh ex_in (repeat 238%N 96)) /\
  (forall sh d, length d = 29 -> dec_ready ex_cf sh (ex_recv d) (repeat 255%N 96)).
Proof.
  split; [|split; [|split]].
  - unfold computes. cbn [ex_cy ex_sl cy_crypt cy_mac_crypt cy_digest cy_poly1305 sl_ks sl_mac_ks sl_digest sl_poly]. refine (conj _ (conj _ (conj _ (conj _ (conj _ _))))).
    + intros iv x y H. injection H as <-. reflexivity.
    + intros iv x y H. injection H as <-. reflexivity.
    + intros m n t H. exact H.
    + intros m n t H. assert (E : t = firstn 16 (m ++ N.of_nat n :: repeat 9%N 16)) by (unfold ex_digest in H; congruence).
      rewrite E, firstn_length, app_length. cbn [length repeat]. lia.
    + reflexivity.
    + intros m k. unfold ex_poly. rewrite firstn_length, !app_length. cbn [length repeat]. lia.
  - unfold total. cbn. repeat split; intros; discriminate.
  - intros []; unfold enc_ready, buf_wf; cbn; repeat split; lia.
  - intros sh d H. unfold dec_ready, buf_wf, ex_recv. cbn [b_mem b_off b_len m_max_buffer m_encrypt_headroom ex_cf].
    rewrite !app_length, !repeat_length, H.
    destruct sh; cbn; repeat split; lia.
Qed.
Example C08_nonvacuous :
  map ex_travel [GenericMac; ComposedMac; Poly1305; CipherTest] = repeat (Some [1;2;3;4;5]%N) 4.
Proof. vm_compute. reflexivity. Qed.

(** ** C09  No payload is delivered unless its authentication tag verifies *)

(** Whatever arrives: an accepted packet is the seal, under the session's
    secret functions, of some payload with an acceptable nonce, and only that
    payload (or nothing, for a duplicate) is handed on. *)
Theorem C09_only_authentic_accepted :
  forall now sl cf cy sh s b g out s' r,
    computes cy sl -> dec_ready cf sh b g ->
    session_decrypt now cf cy sh s b g = Ok (DecOut out s' r) ->
    exists nonce p age,
      (common_is_valid now s = true /\ length nonce = 6 /\
       seal sl sh (cy_ivlen cy) (cy_mac_ivlen cy) (s_compat s) nonce p = Some (b_data b) /\
       is_nonce_valid now s nonce = Some age) /\
      (b_data out = [] \/ b_data out = p) /\
      (b_data out = [] -> p = [] \/ s' = s).
Proof. exact decrypt_accepts_only_authentic. Qed.
Print Assumptions C09_only_authentic_accepted.

(** Changing one byte of the tag makes the packet unacceptable: a concrete
    rejected forgery. *)
Example C09_nonvacuous :
  match session_encrypt ex_cf ex_cy GenericMac (common_init 0 true false 0) ex_in (repeat 238%N 96) with
  | Ok (Some (out, _)) =>
      let forged := firstn 10 (b_data out) ++ [0%N] ++ skipn 11 (b_data out) in
      match session_decrypt 5 ex_cf ex_cy GenericMac (common_init 0 false false 0) (ex_recv forged) (repeat 255%N 96) with
      | Ok (DecNull b') => bytes_eqb (b_data b') forged
      | _ => false
      end
  | _ => false
  end = true.
Proof. vm_compute. reflexivity. Qed.

(** ** C10  A rejected packet leaves the session untouched *)

(** A rejection returns no new session state (by the type of [DecNull]); the
    packet's bytes and position are as before. *)
Theorem C10_rejected_packet_intact :
  forall now sl cf cy sh s b g b',
    computes cy sl -> dec_ready cf sh b g ->
    session_decrypt now cf cy sh s b g = Ok (DecNull b') ->
    b_data b' = b_data b /\ b_off b' = b_off b /\ dec_ready cf sh b' g.
Proof. exact rejected_untouched. Qed.
Print Assumptions C10_rejected_packet_intact.

(** So a packet of the current session is always accepted even if it was first
    tried with the old session of any method. *)
Theorem C10_other_session_accepts :
  forall now cf old cy sl sh s b g1 g2 nonce p age,
    computes cy sl -> total cy sl -> dec_ready cf sh b g2 ->
    (forall cyo sho so, old = Some (cyo, sho, so) ->
       exists slo, computes cyo slo /\ dec_ready cf sho b g1) ->
    authentic sl sh cy now s (b_data b) nonce p age ->
    exists w o s' re, try_sessions now cf old cy sh s b g1 g2 = Ok (w, DecOut o s' re).
Proof. exact other_session_accepts. Qed.
Print Assumptions C10_other_session_accepts.

Example C10_nonvacuous :
  match session_encrypt ex_cf ex_cy GenericMac (common_init 0 true false 0) ex_in (repeat 238%N 96) with
  | Ok (Some (out, _)) =>
      match try_sessions 5 ex_cf (Some (ex_cy, Poly1305, common_init 0 false false 0)) ex_cy GenericMac
              (common_init 0 false false 0) (ex_recv (b_data out)) (repeat 255%N 96) (repeat 1%N 96) with
      | Ok (CurrentSession, DecOut o _ _) => b_data o
      | _ => []
      end
  | _ => []
  end = [1;2;3;4;5]%N.
Proof. vm_compute. reflexivity. Qed.

(** ** C12  Packet growth is exactly the advertised overhead *)

Theorem C12_packet_growth :
  forall sl cf cy sh s b g out s',
    computes cy sl -> length (s_send s) = 6 -> enc_ready cf sh b g ->
    session_encrypt cf cy sh s b g = Ok (Some (out, s')) ->
    length (b_data out) = length (b_data b) + provider_overhead sh.
Proof. exact encrypt_length. Qed.
Print Assumptions C12_packet_growth.

(** null@l2tp keepalives are 20-byte packets with a control header. *)
Theorem C12_l2tp_keepalive :
  forall cf b g,
    m_max_buffer cf mod 16 = 0 -> 32 <= m_max_buffer cf -> length g = m_max_buffer cf -> b_len b = 0 ->
    exists out, null_l2tp_encrypt cf b g = Ok out /\ b_data out = l2tp_control_header ++ l2tp_header.
Proof. exact l2tp_encrypt_keepalive. Qed.
Print Assumptions C12_l2tp_keepalive.

Example C12_nonvacuous :
  match session_encrypt ex_cf ex_cy Poly1305 (common_init 0 true false 0) ex_in (repeat 238%N 96) with
  | Ok (Some (out, _)) => length (b_data out)
  | _ => 0
  end = 29.
Proof. vm_compute. reflexivity. Qed.

(** ** C45 (methods)  Block accesses are aligned and inside the buffer *)

(** With the headroom and alignment the callers provide, no path of any method
    crosses the buffer start or end, misaligns a block access, or requests too
    large a buffer: the result is never [UB], [Bug] or [Fatal]. *)
Theorem C45_encrypt_safe :
  forall sl cf cy sh s b g,
    computes cy sl -> length (s_send s) = 6 -> enc_ready cf sh b g ->
    exists r, session_encrypt cf cy sh s b g = Ok r.
Proof. exact encrypt_safe. Qed.
Print Assumptions C45_encrypt_safe.

Theorem C45_decrypt_safe :
  forall now sl cf cy sh s b g,
    computes cy sl -> dec_ready cf sh b g ->
    exists r, session_decrypt now cf cy sh s b g = Ok r.
Proof. exact decrypt_safe. Qed.
Print Assumptions C45_decrypt_safe.
