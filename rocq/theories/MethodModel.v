(** The data methods at memory level.
    Source: src/methods/*/*.c (function by function below), called from
    src/protocols/ec25519_fhmqvc/ec25519_fhmqvc.c.

    Ciphers and MACs are parameters (any function); which ones are used is
    irrelevant here.  A cipher's [crypt] and a MAC's [digest] may fail, as their
    C counterparts may return false. *)
From Verif Require Import Base NonceModel BufferModel.

(** One session's cryptographic functions (keys already applied). *)
Record crypto := mk_crypto {
  cy_ivlen : nat;                                  (* cipher_info->iv_length *)
  cy_crypt : bytes -> bytes -> option bytes;       (* crypt: iv, input blocks *)
  cy_mac_ivlen : nat;                              (* gmac/umac cipher iv_length (composed methods) *)
  cy_mac_crypt : bytes -> bytes -> option bytes;   (* gmac/umac cipher (composed methods) *)
  cy_digest : bytes -> nat -> option bytes;        (* ghash/uhash digest: padded blocks, length *)
  cy_poly1305 : bytes -> bytes -> bytes            (* crypto_onetimeauth_poly1305: message, key *)
}.

(** Configuration values the methods use: conf.encrypt_headroom, ctx.max_buffer *)
Record mcfg := mk_mcfg { m_encrypt_headroom : nat; m_max_buffer : nat }.

Definition COMMON_HEADBYTES : nat := 8.
(** COMMON_HEADROOM = alignto(COMMON_HEADBYTES, 16), common.h L26 *)
Definition COMMON_HEADROOM : nat := alignto COMMON_HEADBYTES 16.

(** Adding the common header to an output buffer: three pushes, common.h
    L126-140 *)
Definition put_header (s : session) (out : buf) : res (buf * session) :=
  do b1 <- b_push_from out (s_send s);
  do b2 <- b_push_from b1 [0%N];
  do b3 <- b_push_from b2 [packet_type (s_compat s)];
  Ok (b3, set_send s (increment_nonce (s_send s))).

(** block_xor_a (crypto.h L129-132) of a tag into the block at [off]. *)
Fixpoint xor_bytes (a b : bytes) : bytes :=
  match a, b with
  | x :: a', y :: b' => N.lxor x y :: xor_bytes a' b'
  | _, _ => []
  end.

(** Result of encryption: [None] is a NULL return (cipher or MAC failure). *)
Definition enc_result := option (buf * session).

(** generic_gmac.c L150-184 and generic_umac.c L130-164 (identical up to the MAC) *)
Definition generic_mac_encrypt (cf : mcfg) (cy : crypto) (s : session) (inb : buf) (garbage : bytes) : res enc_result :=
  do inb <- b_push_zero inb 16;
  do out <- b_alloc (m_max_buffer cf) garbage (b_len inb) COMMON_HEADROOM;
  let iv := expand_nonce (s_send s) (cy_ivlen cy) in
  let n_blocks := block_count (b_len inb) 16 in
  do inblocks <- read_blocks (b_mem inb) (b_off inb) n_blocks;
  match cy_crypt cy iv inblocks with
  | None => Ok None
  | Some outblocks =>
      do m <- write_blocks (b_mem out) (b_off out) outblocks;
      do out <- b_zero_pad {| b_mem := m; b_off := b_off out; b_len := b_len out |};
      let maclen := b_len out - 16 in
      do macin <- read_blocks (b_mem out) (b_off out + 16) (block_count maclen 16);
      match cy_digest cy macin maclen with
      | None => Ok None
      | Some tag =>
          do b0 <- read_blocks (b_mem out) (b_off out) 1;
          do m <- write_blocks (b_mem out) (b_off out) (xor_bytes b0 tag);
          do r <- put_header s {| b_mem := m; b_off := b_off out; b_len := b_len out |};
          Ok (Some r)
      end
  end.

(** composed_gmac.c L183-224 and composed_umac.c L161-200 *)
Definition composed_mac_encrypt (cf : mcfg) (cy : crypto) (s : session) (inb : buf) (garbage : bytes) : res enc_result :=
  do out <- b_alloc (m_max_buffer cf) garbage (16 + b_len inb) COMMON_HEADROOM;
  let n_blocks := block_count (b_len inb) 16 in
  let mac_iv := expand_nonce (s_send s) (cy_mac_ivlen cy) in
  let iv := expand_nonce (s_send s) (cy_ivlen cy) in
  match cy_mac_crypt cy mac_iv (repeat 0%N 16) with
  | None => Ok None
  | Some b0 =>
      do m <- write_blocks (b_mem out) (b_off out) b0;
      do inblocks <- read_blocks (b_mem inb) (b_off inb) n_blocks;
      match cy_crypt cy iv inblocks with
      | None => Ok None
      | Some outblocks =>
          do m <- write_blocks m (b_off out + 16) outblocks;
          do out <- b_zero_pad {| b_mem := m; b_off := b_off out; b_len := b_len out |};
          let maclen := b_len out - 16 in
          do macin <- read_blocks (b_mem out) (b_off out + 16) (block_count maclen 16);
          match cy_digest cy macin maclen with
          | None => Ok None
          | Some tag =>
              do b0 <- read_blocks (b_mem out) (b_off out) 1;
              do m <- write_blocks (b_mem out) (b_off out) (xor_bytes b0 tag);
              do r <- put_header s {| b_mem := m; b_off := b_off out; b_len := b_len out |};
              Ok (Some r)
          end
      end
  end.

(** generic_poly1305.c L131-167; KEYBYTES = 32, TAGBYTES = 16 *)
Definition poly1305_encrypt (cf : mcfg) (cy : crypto) (s : session) (inb : buf) (garbage : bytes) : res enc_result :=
  do inb <- b_push_zero inb 32;
  do out <- b_alloc (m_max_buffer cf) garbage (b_len inb) COMMON_HEADROOM;
  let iv := expand_nonce (s_send s) (cy_ivlen cy) in
  let n_blocks := block_count (b_len inb) 16 in
  do inblocks <- read_blocks (b_mem inb) (b_off inb) n_blocks;
  match cy_crypt cy iv inblocks with
  | None => Ok None
  | Some outblocks =>
      do m <- write_blocks (b_mem out) (b_off out) outblocks;
      let out := {| b_mem := m; b_off := b_off out; b_len := b_len out |} in
      do key <- read (b_mem out) (b_off out) 32;
      do out <- b_pull out 32;
      do msg <- read (b_mem out) (b_off out) (b_len out);
      do out <- b_push_from out (cy_poly1305 cy msg key);
      do r <- put_header s out;
      Ok (Some r)
  end.

(** cipher_test.c L117-141; [iv_length ?: 1] *)
Definition cipher_test_encrypt (cf : mcfg) (cy : crypto) (s : session) (inb : buf) (garbage : bytes) : res enc_result :=
  do out <- b_alloc (m_max_buffer cf) garbage (b_len inb) COMMON_HEADROOM;
  let iv := expand_nonce (s_send s) (if Nat.eqb (cy_ivlen cy) 0 then 1 else cy_ivlen cy) in
  let n_blocks := block_count (b_len inb) 16 in
  do inblocks <- read_blocks (b_mem inb) (b_off inb) n_blocks;
  match cy_crypt cy iv inblocks with
  | None => Ok None
  | Some outblocks =>
      do m <- write_blocks (b_mem out) (b_off out) outblocks;
      do r <- put_header s {| b_mem := m; b_off := b_off out; b_len := b_len out |};
      Ok (Some r)
  end.

(** Result of decryption. *)
Inductive dec_result :=
| DecNull (inb : buf)                                  (* NULL; the input buffer as left behind *)
| DecOut (out : buf) (s : session) (reordered : bool). (* len 0 for a duplicate *)

(** [fastd_method_handle_common_header], common.h L143-159: reads type, flags
    and nonce through the view.  The caller has checked the length. *)
Definition handle_header (now : Z) (s : session) (inb : buf) : res (option (bytes * N * Z)) :=
  do hdr <- read (b_mem inb) (b_off inb) COMMON_HEADBYTES;
  let nonce := skipn 2 hdr in
  if N.eqb (nth 0 hdr 0%N) (packet_type (s_compat s)) then
    match is_nonce_valid now s nonce with
    | Some age => Ok (Some (nonce, nth 1 hdr 0%N, age))
    | None => Ok None
    end
  else Ok None.

(** Final part of all decrypt functions: the reorder check (e.g. generic_gmac.c
    L236-242). [*reordered] is false on entry (ec25519_fhmqvc.c L114). *)
Definition finish_decrypt (now : Z) (s : session) (out : buf) (nonce : bytes) (age : Z) : res dec_result :=
  match reorder_check now s nonce age with
  | RUB => UB
  | RDuplicate => Ok (DecOut {| b_mem := b_mem out; b_off := b_off out; b_len := 0 |} s false)
  | RNew s' => Ok (DecOut out s' false)
  | RReordered s' => Ok (DecOut out s' true)
  end.

(** block_equal on two 16-byte blocks (crypto.h L111-120); the branch-free
    implementation is the subject of C18. *)
Definition bytes_eqb (a b : bytes) : bool := if list_eq_dec N.eq_dec a b then true else false.

(** generic_gmac.c L187-248 and generic_umac.c L167-228 *)
Definition generic_mac_decrypt (now : Z) (cf : mcfg) (cy : crypto) (s : session) (inb : buf) (garbage : bytes) : res dec_result :=
  if Nat.ltb (b_len inb) (COMMON_HEADBYTES + 16) then Ok (DecNull inb)
  else if negb (common_is_valid now s) then Ok (DecNull inb)
  else
  do h <- handle_header now s inb;
  match h with
  | None => Ok (DecNull inb)
  | Some (nonce, flags, age) =>
      if negb (N.eqb flags 0) then Ok (DecNull inb)
      else
      let iv := expand_nonce nonce (cy_ivlen cy) in
      let v_off := b_off inb + COMMON_HEADBYTES in
      let v_len := b_len inb - COMMON_HEADBYTES in
      do out <- b_alloc (m_max_buffer cf) garbage v_len (ssub (m_encrypt_headroom cf) 16);
      let n_blocks := block_count v_len 16 in
      do inblocks <- read_blocks (b_mem inb) v_off n_blocks;
      match cy_crypt cy iv inblocks with
      | None => Ok (DecNull inb)
      | Some outblocks =>
          do m <- write_blocks (b_mem out) (b_off out) outblocks;
          let out := {| b_mem := m; b_off := b_off out; b_len := b_len out |} in
          let maclen := v_len - 16 in
          do macin <- read_blocks (b_mem inb) (v_off + 16) (block_count maclen 16);
          match cy_digest cy macin maclen with
          | None => Ok (DecNull inb)
          | Some tag =>
              do b0 <- read_blocks (b_mem out) (b_off out) 1;
              if negb (bytes_eqb tag b0) then Ok (DecNull inb)
              else
                do out <- b_pull out 16;
                finish_decrypt now s out nonce age
          end
      end
  end.

(** composed_gmac.c L225-291 and composed_umac.c L203-270 *)
Definition composed_mac_decrypt (now : Z) (cf : mcfg) (cy : crypto) (s : session) (inb : buf) (garbage : bytes) : res dec_result :=
  if Nat.ltb (b_len inb) (COMMON_HEADBYTES + 16) then Ok (DecNull inb)
  else if negb (common_is_valid now s) then Ok (DecNull inb)
  else
  do h <- handle_header now s inb;
  match h with
  | None => Ok (DecNull inb)
  | Some (nonce, flags, age) =>
      if negb (N.eqb flags 0) then Ok (DecNull inb)
      else
      let iv := expand_nonce nonce (cy_ivlen cy) in
      let mac_iv := expand_nonce nonce (cy_mac_ivlen cy) in
      let v_off := b_off inb + COMMON_HEADBYTES in
      let v_len := b_len inb - COMMON_HEADBYTES in
      do out <- b_alloc (m_max_buffer cf) garbage v_len (ssub (m_encrypt_headroom cf) 16);
      let n_blocks := block_count v_len 16 in
      do inblock0 <- read_blocks (b_mem inb) v_off 1;
      match cy_mac_crypt cy mac_iv inblock0 with
      | None => Ok (DecNull inb)
      | Some outblock0 =>
          do m <- write_blocks (b_mem out) (b_off out) outblock0;
          do inblocks <- read_blocks (b_mem inb) (v_off + 16) (n_blocks - 1);
          match cy_crypt cy iv inblocks with
          | None => Ok (DecNull inb)
          | Some outblocks =>
              do m <- write_blocks m (b_off out + 16) outblocks;
              let out := {| b_mem := m; b_off := b_off out; b_len := b_len out |} in
              let maclen := v_len - 16 in
              do macin <- read_blocks (b_mem inb) (v_off + 16) (block_count maclen 16);
              match cy_digest cy macin maclen with
              | None => Ok (DecNull inb)
              | Some tag =>
                  do b0 <- read_blocks (b_mem out) (b_off out) 1;
                  if negb (bytes_eqb tag b0) then Ok (DecNull inb)
                  else
                    do out <- b_pull out 16;
                    finish_decrypt now s out nonce age
              end
          end
      end
  end.

(** generic_poly1305.c L168-232.  Here the input buffer is modified (the key
    space is zeroed in place over header and tag) and restored on failure. *)
Definition poly1305_restore (s : session) (inb : buf) (tag nonce : bytes) : res dec_result :=
  do b0 <- b_push_from inb tag;
  do b1 <- b_push_from b0 nonce;
  do b2 <- b_push_from b1 [0%N];
  do b3 <- b_push_from b2 [packet_type (s_compat s)];
  Ok (DecNull b3).

Definition poly1305_decrypt (now : Z) (cf : mcfg) (cy : crypto) (s : session) (inb : buf) (garbage : bytes) : res dec_result :=
  if Nat.ltb (b_len inb) (COMMON_HEADBYTES + 16) then Ok (DecNull inb)
  else if negb (common_is_valid now s) then Ok (DecNull inb)
  else
  do h <- handle_header now s inb;
  match h with
  | None => Ok (DecNull inb)
  | Some (nonce, flags, age) =>
      if negb (N.eqb flags 0) then Ok (DecNull inb)
      else
      let iv := expand_nonce nonce (cy_ivlen cy) in
      do inb <- b_pull inb COMMON_HEADBYTES;
      do tag <- read (b_mem inb) (b_off inb) 16;
      do inb <- b_pull inb 16;
      do inb <- b_push_zero inb 32;
      do out <- b_alloc (m_max_buffer cf) garbage (b_len inb) (ssub (m_encrypt_headroom cf) 32);
      let n_blocks := block_count (b_len inb) 16 in
      do inblocks <- read_blocks (b_mem inb) (b_off inb) n_blocks;
      let crypted := cy_crypt cy iv inblocks in
      do inb <- b_pull inb 32;
      match crypted with
      | None => poly1305_restore s inb tag nonce
      | Some outblocks =>
          do m <- write_blocks (b_mem out) (b_off out) outblocks;
          let out := {| b_mem := m; b_off := b_off out; b_len := b_len out |} in
          do msg <- read (b_mem inb) (b_off inb) (b_len inb);
          do key <- read (b_mem out) (b_off out) 32;
          if negb (bytes_eqb tag (cy_poly1305 cy msg key)) then poly1305_restore s inb tag nonce
          else
            do out <- b_pull out 32;
            finish_decrypt now s out nonce age
      end
  end.

(** cipher_test.c L144-189 *)
Definition cipher_test_decrypt (now : Z) (cf : mcfg) (cy : crypto) (s : session) (inb : buf) (garbage : bytes) : res dec_result :=
  if Nat.ltb (b_len inb) COMMON_HEADBYTES then Ok (DecNull inb)
  else if negb (common_is_valid now s) then Ok (DecNull inb)
  else
  do h <- handle_header now s inb;
  match h with
  | None => Ok (DecNull inb)
  | Some (nonce, flags, age) =>
      if negb (N.eqb flags 0) then Ok (DecNull inb)
      else
      let iv := expand_nonce nonce (if Nat.eqb (cy_ivlen cy) 0 then 1 else cy_ivlen cy) in
      let v_off := b_off inb + COMMON_HEADBYTES in
      let v_len := b_len inb - COMMON_HEADBYTES in
      do out <- b_alloc (m_max_buffer cf) garbage v_len (m_encrypt_headroom cf);
      let n_blocks := block_count v_len 16 in
      do inblocks <- read_blocks (b_mem inb) v_off n_blocks;
      match cy_crypt cy iv inblocks with
      | None => Ok (DecNull inb)
      | Some outblocks =>
          do m <- write_blocks (b_mem out) (b_off out) outblocks;
          finish_decrypt now s {| b_mem := m; b_off := b_off out; b_len := b_len out |} nonce age
      end
  end.

(** The null methods have no counters: only flags and a validity bit
    (null.c L18-22). *)
Record null_session := mk_null { n_initiator : bool; n_compat : bool; n_valid : bool }.

(** null.c L80-85 *)
Definition null_encrypt (s : null_session) (inb : buf) : res buf :=
  b_push_from inb [packet_type (n_compat s)].

(** null.c L88-93 *)
Definition null_decrypt (inb : buf) : res buf := b_pull inb 1.

(** null-l2tp.c L98-127.  Header bytes: type 0, version 3, two reserved zero
    bytes, session id 1 (big endian); control header: 0xC8, 3, length 12 (big
    endian), connection id and sequence numbers 0. *)
Definition l2tp_header : bytes := [0; 3; 0; 0; 0; 0; 0; 1]%N.
Definition l2tp_control_header : bytes := [200; 3; 0; 12; 0; 0; 0; 0; 0; 0; 0; 0]%N.

Definition null_l2tp_encrypt (cf : mcfg) (inb : buf) (garbage : bytes) : res buf :=
  if Nat.eqb (b_len inb) 0 then
    do out <- b_alloc (m_max_buffer cf) garbage 0 (12 + 8);
    do out <- b_push_from out l2tp_header;
    b_push_from out l2tp_control_header
  else b_push_from inb l2tp_header.

(** null-l2tp.c L127-147 *)
Definition null_l2tp_decrypt (inb : buf) : res (option buf) :=
  if Nat.ltb (b_len inb) 8 then Ok None
  else
  do h <- read (b_mem inb) (b_off inb) 8;
  if negb (N.eqb (N.land (nth 1 h 0%N) 15) 3) then Ok None
  else if negb (N.eqb (N.land (nth 0 h 0%N) 128) 0) then Ok None
  else if negb (bytes_eqb (skipn 4 h) [0; 0; 0; 1]%N) then Ok None
  else do b <- b_pull inb 8; Ok (Some b).

(** Dispatch over the four keyed shapes. *)
Inductive shape := GenericMac | ComposedMac | Poly1305 | CipherTest.

Definition method_encrypt (sh : shape) :=
  match sh with
  | GenericMac => generic_mac_encrypt
  | ComposedMac => composed_mac_encrypt
  | Poly1305 => poly1305_encrypt
  | CipherTest => cipher_test_encrypt
  end.

Definition method_decrypt (sh : shape) :=
  match sh with
  | GenericMac => generic_mac_decrypt
  | ComposedMac => composed_mac_decrypt
  | Poly1305 => poly1305_decrypt
  | CipherTest => cipher_test_decrypt
  end.

(** encrypt_headroom / overhead of the providers (the provider structs at the
    end of each method file) *)
Definition provider_encrypt_headroom (sh : shape) : nat :=
  match sh with GenericMac => 16 | ComposedMac => 0 | Poly1305 => 32 | CipherTest => 0 end.
Definition provider_overhead (sh : shape) : nat :=
  match sh with GenericMac => 24 | ComposedMac => 24 | Poly1305 => 24 | CipherTest => 8 end.

(** The encryption part of [session_send], ec25519_fhmqvc.c L164-176 *)
Definition session_encrypt (cf : mcfg) (cy : crypto) (sh : shape) (s : session) (b : buf) (garbage : bytes) : res enc_result :=
  do b <- b_zero_pad b;
  method_encrypt sh cf cy s b garbage.

(** The decryption with one session in [protocol_handle_recv],
    ec25519_fhmqvc.c L116-124 *)
Definition session_decrypt (now : Z) (cf : mcfg) (cy : crypto) (sh : shape) (s : session) (b : buf) (garbage : bytes) : res dec_result :=
  do b <- b_zero_pad b;
  method_decrypt sh now cf cy s b garbage.

(** Trying the old session, then the current one, on the same buffer:
    [protocol_handle_recv], ec25519_fhmqvc.c L116-127.  [old] is absent when the
    peer has no (valid) old session. *)
Inductive which := OldSession | CurrentSession.
Definition try_sessions (now : Z) (cf : mcfg) (old : option (crypto * shape * session))
    (cy : crypto) (sh : shape) (s : session) (b : buf) (g1 g2 : bytes) : res (which * dec_result) :=
  do b <- b_zero_pad b;
  do r1 <- match old with
           | Some (cyo, sho, so) =>
               if common_is_valid now so then method_decrypt sho now cf cyo so b g1 else Ok (DecNull b)
           | None => Ok (DecNull b)
           end;
  match r1 with
  | DecOut _ _ _ => Ok (OldSession, r1)
  | DecNull b => do r2 <- method_decrypt sh now cf cy s b g2; Ok (CurrentSession, r2)
  end.
