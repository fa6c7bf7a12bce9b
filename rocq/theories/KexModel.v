(** The computations of the FHMQV key exchange: protocols/ec25519_fhmqvc/handshake.c,
    state.c, ec25519_fhmqvc.c and ec25519_fhmqvc.h.  libuecc and the hash functions are
    parameters. *)
From Verif Require Import Base BufferModel.

(** What is used of libuecc and of sha256.c/hkdf_sha256.c *)
Record kex := mk_kex {
  k_pt : Type;                                 (* ecc_25519_work_t: a point *)
  k_zero : k_pt;
  k_add : k_pt -> k_pt -> k_pt;                (* ecc_25519_add; ecc_25519_double is adding a point to itself *)
  k_is_zero : k_pt -> bool;                    (* ecc_25519_is_identity *)
  k_base : k_pt;                               (* the generator of ecc_25519_scalarmult_base *)
  k_order : N;                                 (* its order, ecc_25519_gf_order *)
  k_store : k_pt -> bytes;                     (* ecc_25519_store_packed_legacy *)
  k_load : bytes -> option k_pt;               (* ecc_25519_load_packed_legacy *)
  k_gf_add : N -> N -> N;                      (* ecc_25519_gf_add *)
  k_gf_mult : N -> N -> N;                     (* ecc_25519_gf_mult *)
  k_hash : bytes -> bytes;                     (* SHA-256 *)
  k_extract : bytes -> bytes -> bytes;         (* HKDF extract: salt, input *)
  k_expand : nat -> bytes -> bytes -> bytes    (* HKDF expand: blocks, key, info *)
}.

(** [ecc_25519_scalarmult_bits]: the lower bits of the scalar times the point *)
Definition smul (K : kex) (n : N) (p : k_pt K) : k_pt K :=
  match n with N0 => k_zero K | Npos q => Pos.iter_op (k_add K) q p end.
Definition smul_bits (K : kex) (n : N) (p : k_pt K) (bits : N) : k_pt K := smul K (n mod 2 ^ bits) p.
(** [ecc_25519_scalarmult], [ecc_25519_scalarmult_base] *)
Definition scalarmult (K : kex) (n : N) (p : k_pt K) : k_pt K := smul_bits K n p 256.

(** [ecc_25519_gf_sanitize_secret] *)
Definition upd (l : bytes) (i : nat) (f : byte -> byte) : bytes := firstn i l ++ f (nth i l 0%N) :: skipn (S i) l.
Definition sanitize (s : bytes) : bytes :=
  upd (upd s 0 (fun b => N.land b 0xf8)) 31 (fun b => N.lor (N.land b 0x7f) 0x40).

(** [divide_key], ec25519_fhmqvc.h L129-140: the bytes from the last to the first, with the
    carry; c2 is an uint8_t.  True if the value was divisible. *)
Fixpoint divide_loop (l : bytes) : bytes * N :=
  match l with
  | [] => ([], 0%N)
  | b :: r =>
      let '(r', c) := divide_loop r in
      (N.lor (N.shiftr b 3) c :: r', N.land (N.shiftl b 5) 0xff)
  end.
Definition divide_key (l : bytes) : bytes * bool := let '(r, c) := divide_loop l in (r, N.eqb c 0).

(** [octuple_point], ec25519_fhmqvc.h L143-148 *)
Definition octuple (K : kex) (p : k_pt K) : k_pt K :=
  let w := k_add K p p in
  let w := k_add K w w in
  k_add K w w.

(** keypair_t: the secret is divided by 8 *)
Record keypair := mk_keypair { kp_secret : bytes; kp_public : bytes }.
Definition public_of (K : kex) (secret : bytes) : bytes := k_store K (scalarmult K (le_val secret) (k_base K)).

(** [protocol_init], ec25519_fhmqvc.c L42-58, after [read_key]; Fatal: exit_error *)
Definition protocol_init (K : kex) (secret : bytes) : res keypair :=
  let public := public_of K secret in
  let '(s, ok) := divide_key secret in
  if ok then Ok (mk_keypair s public) else Fatal.

(** [new_handshake_key], state.c L29-39 *)
Definition new_handshake_key (K : kex) (random : bytes) : res keypair :=
  let secret := sanitize random in
  let public := public_of K secret in
  let '(s, ok) := divide_key secret in
  if ok then Ok (mk_keypair s public) else Bug.

(** fastd_protocol_key_t, and its checks: [protocol_read_key], ec25519_fhmqvc.c L61-74,
    [add_dynamic], handshake.c L541-548 *)
Record peerkey (K : kex) := mk_peerkey { pk_key : bytes; pk_point : k_pt K }.
Arguments mk_peerkey {K}. Arguments pk_key {K}. Arguments pk_point {K}.
Definition load_key (K : kex) (key : bytes) : option (peerkey K) :=
  match k_load K key with
  | Some p => if k_is_zero K p then None else Some (mk_peerkey key p)
  | None => None
  end.

(** [derive_key], handshake.c L39-56 *)
Definition kdf_info (method A B X Y : bytes) : bytes := A ++ B ++ X ++ Y ++ method.
Definition derive_key (K : kex) (blocks : nat) (salt method A B X Y sigma : bytes) : bytes :=
  let prk := k_extract K salt sigma in
  k_expand K blocks prk (kdf_info method A B X Y).

(** [make_shared_handshake_key], handshake.c L176-250; [own] is conf.protocol_config->key *)
Definition half (h : bytes) (i : nat) : N :=
  le_val (upd (firstn 16 (skipn i h)) 15 (fun b => N.lor b 0x80)).
Definition make_shared (K : kex) (initiator : bool) (own hk : keypair) (peer : peerkey K) (peer_hk : bytes) : option (bytes * bytes) :=
  match k_load K peer_hk with
  | None => None
  | Some workXY =>
      if k_is_zero K workXY then None
      else
        let '(A, B, X, Y) :=
          if initiator then (kp_public own, pk_key peer, kp_public hk, peer_hk)
          else (pk_key peer, kp_public own, peer_hk, kp_public hk) in
        let h := k_hash K (Y ++ X ++ B ++ A) in
        let d := half h 0 in
        let e := half h 16 in
        let '(s, work) :=
          if initiator then
            (k_gf_add K (k_gf_mult K d (le_val (kp_secret own))) (le_val (kp_secret hk)), smul_bits K e (pk_point peer) 128)
          else
            (k_gf_add K (k_gf_mult K e (le_val (kp_secret own))) (le_val (kp_secret hk)), smul_bits K d (pk_point peer) 128) in
        let work := k_add K workXY work in
        let work := octuple K work in
        let work := scalarmult K s work in
        if k_is_zero K work then None
        else
          let sigma := k_store K work in
          Some (sigma, derive_key K 1 (repeat 0%N 32) [] A B X Y sigma)
  end.

(** The key of a session: [new_session], handshake.c L95-97, as called by [establish] from
    [finish_handshake] (L341-344, initiator) and [handle_finish_handshake] (L393-396, responder) *)
Definition session_secret (K : kex) (initiator : bool) (own hk : keypair) (peer_key peer_hk : bytes)
    (blocks : nat) (method sigma salt : bytes) : bytes :=
  if initiator then derive_key K blocks salt method (kp_public hk) peer_hk (kp_public own) peer_key sigma
  else derive_key K blocks salt method peer_hk (kp_public hk) peer_key (kp_public own) sigma.
