(** What a fastd data packet is, written directly from the wire format and
    without reference to buffers or to the code's order of operations. *)
From Verif Require Import Base NonceModel BufferModel MethodModel.

(** A session's secret functions as mathematics: two keystreams (position ->
    byte, per IV), the digest of a message and the one-time authenticator. *)
Record sealing := mk_sealing {
  sl_ks : bytes -> nat -> N;
  sl_mac_ks : bytes -> nat -> N;
  sl_digest : bytes -> nat -> option bytes;
  sl_poly : bytes -> bytes -> bytes
}.

(** Bytes [from .. from+n) of a keystream. *)
Definition ks_bytes (k : nat -> N) (from n : nat) : bytes := map k (seq from n).

(** Encryption with a keystream starting at position [from]. *)
Fixpoint xor_ks (k : nat -> N) (from : nat) (l : bytes) : bytes :=
  match l with
  | [] => []
  | b :: r => N.lxor b (k from) :: xor_ks k (S from) r
  end.

(** The message extended with zeros to whole 16-byte blocks. *)
Definition pad16 (l : bytes) : bytes := l ++ repeat 0%N ((16 - length l mod 16) mod 16).

(** The packet carrying payload [p] under nonce [nonce]: packet type, zero
    flags, nonce, tag and ciphertext.  [None]: the MAC could not be computed. *)
Definition seal (sl : sealing) (sh : shape) (ivlen mac_ivlen : nat) (compat : bool)
    (nonce p : bytes) : option bytes :=
  let hdr := packet_type compat :: 0%N :: nonce in
  let k := sl_ks sl (expand_nonce nonce ivlen) in
  match sh with
  | GenericMac =>
      let c := xor_ks k 16 p in
      match sl_digest sl (pad16 c) (length c) with
      | Some d => Some (hdr ++ xor_bytes (ks_bytes k 0 16) d ++ c)
      | None => None
      end
  | ComposedMac =>
      let c := xor_ks k 0 p in
      let mk := sl_mac_ks sl (expand_nonce nonce mac_ivlen) in
      match sl_digest sl (pad16 c) (length c) with
      | Some d => Some (hdr ++ xor_bytes (ks_bytes mk 0 16) d ++ c)
      | None => None
      end
  | Poly1305 =>
      let c := xor_ks k 32 p in
      Some (hdr ++ sl_poly sl c (ks_bytes k 0 32) ++ c)
  | CipherTest =>
      let k := sl_ks sl (expand_nonce nonce (if Nat.eqb ivlen 0 then 1 else ivlen)) in
      Some (hdr ++ xor_ks k 0 p)
  end.

(** The C functions given to a session compute these functions whenever they
    succeed. *)
Definition computes (cy : crypto) (sl : sealing) : Prop :=
  (forall iv x y, cy_crypt cy iv x = Some y -> y = xor_ks (sl_ks sl iv) 0 x) /\
  (forall iv x y, cy_mac_crypt cy iv x = Some y -> y = xor_ks (sl_mac_ks sl iv) 0 x) /\
  (forall m n t, cy_digest cy m n = Some t -> sl_digest sl m n = Some t) /\
  (forall m n t, sl_digest sl m n = Some t -> length t = 16%nat) /\
  (forall m k, cy_poly1305 cy m k = sl_poly sl m k) /\
  (forall m k, length (sl_poly sl m k) = 16%nat).

(** ... and never fail. *)
Definition total (cy : crypto) (sl : sealing) : Prop :=
  (forall iv x, cy_crypt cy iv x <> None) /\
  (forall iv x, cy_mac_crypt cy iv x <> None) /\
  (forall m n, cy_digest cy m n = sl_digest sl m n) /\
  (forall m n, sl_digest sl m n <> None).

(** Preconditions on buffers, as established by the callers (C43, C45). *)
Definition buf_wf (mb : nat) (b : buf) : Prop :=
  length (b_mem b) = mb /\ b_off b + b_len b <= mb.

(** extra output space an encryption needs besides header and payload *)
Definition enc_space (sh : shape) : nat :=
  match sh with GenericMac => 16 | ComposedMac => 16 | Poly1305 => 32 | CipherTest => 0 end.

Definition enc_ready (cf : mcfg) (sh : shape) (b : buf) (garbage : bytes) : Prop :=
  m_max_buffer cf mod 16 = 0 /\ length garbage = m_max_buffer cf /\
  buf_wf (m_max_buffer cf) b /\
  b_off b mod 16 = 0 /\ provider_encrypt_headroom sh <= b_off b /\
  16 + enc_space sh + b_len b <= m_max_buffer cf.

Definition dec_ready (cf : mcfg) (sh : shape) (b : buf) (garbage : bytes) : Prop :=
  m_max_buffer cf mod 16 = 0 /\ length garbage = m_max_buffer cf /\
  buf_wf (m_max_buffer cf) b /\
  b_off b mod 16 = 8 /\
  m_encrypt_headroom cf mod 16 = 0 /\ provider_encrypt_headroom sh <= m_encrypt_headroom cf /\
  ssub (m_encrypt_headroom cf) (enc_space sh) + enc_space sh
    + (b_len b - provider_overhead sh) <= m_max_buffer cf.

(** [pkt] is a packet that the session accepts, carrying [p] under [nonce]. *)
Definition authentic (sl : sealing) (sh : shape) (cy : crypto) (now : Z) (s : session)
    (pkt nonce p : bytes) (age : Z) : Prop :=
  common_is_valid now s = true /\ length nonce = 6 /\
  seal sl sh (cy_ivlen cy) (cy_mac_ivlen cy) (s_compat s) nonce p = Some pkt /\
  is_nonce_valid now s nonce = Some age.
