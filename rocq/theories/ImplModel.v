(** The implementations of ciphers and MACs and the memory of sessions.  Source:
    src/crypto/cipher/ciphers.c.in, src/crypto/mac/macs.c.in (the two are the same but for
    names), src/cpuid.h, src/config.c L107-120, the [init], [crypt], [digest] and [free] functions
    of all implementations in src/crypto, the functions [key_length], [session_init] and
    [session_free] of all method providers in src/methods, and the handling of sessions in
    src/protocols/ec25519_fhmqvc/{state.c, handshake.c, ec25519_fhmqvc.c}.

    The heap is a list of objects; the address of an object is its index, which is never used
    again.  Using or freeing an object that was freed, an object of another implementation,
    or NULL is undefined behaviour.  An object keeps its contents when it is freed, as the memory
    given back does.  Simplified: the contents of a cipher or MAC state are the key
    that it was made from (GHASH and UHASH keep tables made from it); memory allocation does not fail
    (alloc.h ends the program); whether a session is valid, whether packets can
    be decrypted and what a cipher yields is the environment's choice. *)
From Verif Require Import Base BufferModel MethodModel NameModel.
From Coq Require Import String.
Notation length := List.length.

(** * Implementations *)
Inductive impl :=
  AesOpenssl | NullMemcpy | Salsa20Xmm | Salsa20Nacl | Salsa2012Xmm | Salsa2012Nacl
| GhashPclmulqdq | GhashBuiltin | UhashBuiltin.
Definition impl_eqb (a b : impl) : bool :=
  match a, b with
  | AesOpenssl, AesOpenssl | NullMemcpy, NullMemcpy | Salsa20Xmm, Salsa20Xmm | Salsa20Nacl, Salsa20Nacl
  | Salsa2012Xmm, Salsa2012Xmm | Salsa2012Nacl, Salsa2012Nacl
  | GhashPclmulqdq, GhashPclmulqdq | GhashBuiltin, GhashBuiltin | UhashBuiltin, UhashBuiltin => true
  | _, _ => false
  end.

(** cpuid.h L19-28 *)
Definition CPUID_FXSR : N := N.shiftl 1 24.
Definition CPUID_SSE2 : N := N.shiftl 1 26.
Definition CPUID_PCLMULQDQ : N := N.shiftl 1 33.
Definition CPUID_SSSE3 : N := N.shiftl 1 41.

(** [cipher_available], ciphers.c.in L45-47, [mac_available], macs.c.in L45-47, with the functions
    [available] of the implementations: salsa20_xmm.c L38-40, salsa2012_xmm.c L38-40,
    ghash_pclmulqdq.c L19-23.  [cpu] is the result of [fastd_cpuid]. *)
Definition available (cpu : N) (i : impl) : bool :=
  match i with
  | Salsa20Xmm | Salsa2012Xmm => negb (N.eqb (N.land cpu CPUID_SSE2) 0)
  | GhashPclmulqdq =>
      let REQ := N.lor (N.lor CPUID_FXSR CPUID_SSSE3) CPUID_PCLMULQDQ in N.eqb (N.land cpu REQ) REQ
  | _ => true
  end.

(** The bytes of the key that [init] reads: aes128_ctr_openssl.c L37, salsa20_nacl.c L39, salsa20_xmm.c L47,
    ghash_builtin.c L71, ghash_pclmulqdq_impl.c L75, uhash_builtin.c (see the uhash model) *)
Definition key_bytes (i : impl) : nat :=
  match i with
  | AesOpenssl => 16 | NullMemcpy => 0
  | Salsa20Xmm | Salsa20Nacl | Salsa2012Xmm | Salsa2012Nacl => 32
  | GhashPclmulqdq | GhashBuiltin => 16
  | UhashBuiltin => 1440
  end.

(** * Choosing implementations *)
Section table.
  Context {I : Type}.
  Variable nm : I -> bytes.

  (** [ciphers] and [macs], ciphers.c.in L36-38: an array of names, infos and NULL-terminated arrays of implementations.
      An info is known by its name. *)
  Definition table := list (I * list (bytes * impl)).
  (** [cipher_conf] and [mac_conf] *)
  Definition choice := list (option impl).

  (** [fastd_cipher_init], ciphers.c.in L49-59, [fastd_mac_init] *)
  Fixpoint first_available (cpu : N) (l : list (bytes * impl)) : option impl :=
    match l with
    | [] => None
    | (_, i) :: r => if available cpu i then Some i else first_available cpu r
    end.
  Definition init (cpu : N) (T : table) : choice := map (fun x => first_available cpu (snd x)) T.

  (** The inner loop of [fastd_cipher_config], L66-74 *)
  Fixpoint find_impl (l : list (bytes * impl)) (name : bytes) : option impl :=
    match l with
    | [] => None
    | (n, i) :: r => if bytes_eqb n name then Some i else find_impl r name
    end.
  (** [fastd_cipher_config], ciphers.c.in L61-81, [fastd_mac_config]; [None] is [false] *)
  Fixpoint config (cpu : N) (T : table) (c : choice) (name im : bytes) : option choice :=
    match T, c with
    | (x, l) :: T', y :: c' =>
        if bytes_eqb (nm x) name then
          match find_impl l im with
          | Some i => if available cpu i then Some (Some i :: c') else None
          | None => None
          end
        else match config cpu T' c' name im with Some c' => Some (y :: c') | None => None end
    | _, _ => None
    end.

  (** [fastd_cipher_info_get_by_name], L83-96 *)
  Fixpoint by_name (T : table) (c : choice) (name : bytes) : option I :=
    match T, c with
    | (x, _) :: T', y :: c' =>
        if negb (bytes_eqb (nm x) name) then by_name T' c' name
        else match y with Some _ => Some x | None => None end
    | _, _ => None
    end.
  (** [fastd_cipher_get], L98-106; NULL is [None] *)
  Fixpoint get_impl (T : table) (c : choice) (info : I) : option impl :=
    match T, c with
    | (x, _) :: T', y :: c' => if bytes_eqb (nm x) (nm info) then y else get_impl T' c' info
    | _, _ => None
    end.

  (** The statements "cipher ... use ..." or "mac ... use ..." of the configuration, config.y L247-254,
      [fastd_config_cipher], config.c L107-112, [fastd_config_mac], L115-120 *)
  Fixpoint configure (cpu : N) (T : table) (c : choice) (l : list (bytes * bytes)) : res choice :=
    match l with
    | [] => Ok c
    | (name, im) :: r => match config cpu T c name im with Some c' => configure cpu T c' r | None => Fatal end
    end.
  (** fastd.c L410-411, then the configuration is read *)
  Definition choose (cpu : N) (T : table) (l : list (bytes * bytes)) : res choice := configure cpu T (init cpu T) l.
End table.
Arguments table : clear implicits.

(** What can be compiled in: meson.build of src/crypto and the directories below; every cipher, every MAC, and
    the marked implementations can be left out, the order is fixed.  [b_*] say what is compiled. *)
Record build := mk_build {
  b_aes : bool; b_null : bool;
  b_salsa20 : bool; b_salsa20_xmm : bool; b_salsa20_nacl : bool;
  b_salsa2012 : bool; b_salsa2012_xmm : bool; b_salsa2012_nacl : bool;
  b_ghash : bool; b_ghash_pclmulqdq : bool; b_uhash : bool
}.
Definition opt {A} (b : bool) (x : A) : list A := if b then [x] else [].
Definition ciphers (B : build) : table cipher_info :=
  opt (b_aes B) (mk_cipher (str "aes128-ctr") 16, [(str "openssl", AesOpenssl)]) ++
  opt (b_null B) (mk_cipher (str "null") 0, [(str "memcpy", NullMemcpy)]) ++
  opt (b_salsa20 B) (mk_cipher (str "salsa20") 8,
    opt (b_salsa20_xmm B) (str "xmm", Salsa20Xmm) ++ opt (b_salsa20_nacl B) (str "nacl", Salsa20Nacl)) ++
  opt (b_salsa2012 B) (mk_cipher (str "salsa2012") 8,
    opt (b_salsa2012_xmm B) (str "xmm", Salsa2012Xmm) ++ opt (b_salsa2012_nacl B) (str "nacl", Salsa2012Nacl)).
Definition macs (B : build) : table bytes :=
  opt (b_ghash B) (str "ghash",
    opt (b_ghash_pclmulqdq B) (str "pclmulqdq", GhashPclmulqdq) ++ [(str "builtin", GhashBuiltin)]) ++
  opt (b_uhash B) (str "uhash", [(str "builtin", UhashBuiltin)]).
Definition mac_name (x : bytes) : bytes := x.

(** What method names are looked up in *)
Definition some {A} (x : option A) : bool := match x with Some _ => true | None => false end.
Definition lookup_env (B : build) (cc mc : choice) : env :=
  mk_env (combine (map fst (ciphers B)) (map some cc)) (combine (map fst (macs B)) (map some mc)).

(** * The heap *)
Inductive what :=
| Session (p : provider) (parts : list (impl * option nat)) (* a method's [struct fastd_method_session_state] with its pairs of
                                                               an implementation and its state, in the order of the fields *)
| State (i : impl) (sub : option nat)                       (* a [fastd_cipher_state_t] or [fastd_mac_state_t] *)
| Evp                                                       (* OpenSSL's cipher context *)
| Peer                                                      (* a [fastd_protocol_peer_state_t] *).
Record cell := mk_cell { c_what : what; c_data : bytes; c_live : bool }.
Definition heap := list cell.

Definition alloc (w : what) (d : bytes) (h : heap) : heap * nat := (h ++ [mk_cell w d true], length h).
Fixpoint upd (h : heap) (p : nat) (c : cell) : heap :=
  match h, p with
  | [], _ => []
  | _ :: r, O => c :: r
  | x :: r, S p => x :: upd r p c
  end.
(** an object in use *)
Definition load (h : heap) (p : nat) : res cell :=
  match nth_error h p with Some c => if c_live c then Ok c else UB | None => UB end.
Definition zeros (d : bytes) : bytes := repeat 0%N (length d).
(** [secure_memzero], crypto.h L93-96 *)
Definition wipe (h : heap) (p : nat) : res heap :=
  do c <- load h p; Ok (upd h p (mk_cell (c_what c) (zeros (c_data c)) true)).
Definition free (h : heap) (p : nat) : res heap :=
  do c <- load h p; Ok (upd h p (mk_cell (c_what c) (c_data c) false)).

(** [n] bytes from [off] *)
Definition read (d : bytes) (off n : nat) : res bytes :=
  if Nat.leb (off + n) (length d) then Ok (firstn n (skipn off d)) else UB.

(** [init]: aes128_ctr_openssl.c L29-38, null_memcpy.c L18-22, salsa20_nacl.c L35-42 and the like, ghash_builtin.c L61-106,
    ghash_pclmulqdq_impl.c L67-78, uhash_builtin.c *)
Definition impl_init (i : impl) (secret : bytes) (off : nat) (h : heap) : res (heap * option nat) :=
  match i with
  | NullMemcpy => Ok (h, None)
  | AesOpenssl =>
      do k <- read secret off (key_bytes i);
      let '(h, e) := alloc Evp k h in
      let '(h, s) := alloc (State i (Some e)) [] h in
      Ok (h, Some s)
  | _ =>
      do k <- read secret off (key_bytes i);
      let '(h, s) := alloc (State i None) k h in Ok (h, Some s)
  end.
(** [crypt] and [digest], as far as memory is concerned: the state is read *)
Definition impl_use (i : impl) (st : option nat) (h : heap) : res unit :=
  match i, st with
  | NullMemcpy, _ => Ok tt
  | _, None => UB
  | _, Some s =>
      do c <- load h s;
      match c_what c with
      | State j sub =>
          if impl_eqb i j then
            match i, sub with
            | AesOpenssl, Some e => do _ <- load h e; Ok tt
            | AesOpenssl, None => UB
            | _, _ => Ok tt
            end
          else UB
      | _ => UB
      end
  end.
(** [free]: aes128_ctr_openssl.c L61-66, null_memcpy.c L33, salsa20_nacl.c L51-56, salsa20_xmm.c L64-69 and the same for
    salsa2012, ghash_builtin.c L146-151, ghash_pclmulqdq_impl.c L82-87, uhash_builtin.c L298-303.
    EVP_CIPHER_CTX_free clears the context (its manual says so). *)
Definition impl_free (i : impl) (st : option nat) (h : heap) : res heap :=
  match i, st with
  | NullMemcpy, _ => Ok h
  | _, None => Ok h
  | _, Some s =>
      do c <- load h s;
      match c_what c with
      | State j sub =>
          if impl_eqb i j then
            match i, sub with
            | AesOpenssl, Some e =>
                do h <- wipe h e;
                do h <- free h e;
                free h s
            | AesOpenssl, None => UB
            | _, _ => do h <- wipe h s; free h s
            end
          else UB
      | _ => UB
      end
  end.

(** * Sessions of methods *)

(** aes128_ctr.c L18-21, null.c L18-21, salsa20.c L18-21, salsa2012.c L18-21; ghash.c L19-21, uhash.c L20-22 *)
Definition cipher_keylen (c : cipher_info) : nat :=
  if bytes_eqb (ci_name c) (str "aes128-ctr") then 16
  else if bytes_eqb (ci_name c) (str "null") then 0
  else 32.
Definition mac_keylen (x : bytes) : nat := if bytes_eqb x (str "ghash") then 16 else 1024 + 3 * 16 + 4 * 24 + 4 * 64 + 4 * 4.

(** [method_key_length]: cipher_test.c L68-70, generic_poly1305.c L84-86, generic_gmac.c L85-87, generic_umac.c L78-80,
    composed_gmac.c L112-114, composed_umac.c L104-106, null.c L33-35, null-l2tp.c L42-44 *)
Definition key_length (p : provider) (m : method) : nat :=
  match p, m with
  | CipherTest, M_cipher c | GenericPoly1305, M_cipher c => cipher_keylen c
  | GenericGmac, M_generic c x => cipher_keylen c
  | GenericUmac, M_generic c x => cipher_keylen c + mac_keylen x
  | ComposedGmac, M_composed c t x => cipher_keylen c + cipher_keylen t
  | ComposedUmac, M_composed c t x => cipher_keylen c + cipher_keylen t + mac_keylen x
  | _, _ => 0
  end.

(** The chosen implementations *)
Record chosen := mk_chosen { x_ciphers : table cipher_info; x_cc : choice; x_macs : table bytes; x_mc : choice }.
Definition the_cipher (X : chosen) (c : cipher_info) : option impl := get_impl ci_name (x_ciphers X) (x_cc X) c.
Definition the_mac (X : chosen) (x : bytes) : option impl := get_impl mac_name (x_macs X) (x_mc X) x.

(** The fields of a session that hold an implementation and its state *)
Definition fields (p : provider) : nat :=
  match p with
  | PlainNull | NullL2tp => 0
  | CipherTest | GenericPoly1305 => 1
  | GenericGmac | GenericUmac => 2
  | ComposedGmac | ComposedUmac => 3
  end.

(** session->x = get(info); session->x_state = session->x->init(...): a NULL implementation is dereferenced *)
Definition add_part (s : nat) (i : option impl) (key : bytes) (off : nat) (h : heap) : res heap :=
  match i with
  | None => UB
  | Some i =>
      do r <- impl_init i key off h;
      let '(h, st) := r in
      do c <- load h s;
      match c_what c with
      | Session p parts => Ok (upd h s (mk_cell (Session p (parts ++ [(i, st)])) (c_data c) true))
      | _ => UB
      end
  end.

Definition provider_eqb (a b : provider) : bool :=
  match a, b with
  | CipherTest, CipherTest | ComposedGmac, ComposedGmac | ComposedUmac, ComposedUmac | GenericGmac, GenericGmac
  | GenericPoly1305, GenericPoly1305 | GenericUmac, GenericUmac | PlainNull, PlainNull | NullL2tp, NullL2tp => true
  | _, _ => false
  end.
(** A session of provider [p] *)
Definition session (h : heap) (p : provider) (s : nat) : res (list (impl * option nat)) :=
  do c <- load h s;
  match c_what c with
  | Session q parts => if provider_eqb p q then Ok parts else UB
  | _ => UB
  end.

Definition part (h : heap) (s : nat) (p : provider) (k : nat) : res (impl * option nat) :=
  do parts <- session h p s;
  match nth_error parts k with Some x => Ok x | None => UB end.
Definition use_part (s : nat) (p : provider) (k : nat) (h : heap) : res unit :=
  do x <- part h s p k; impl_use (fst x) (snd x) h.
Definition free_part (s : nat) (p : provider) (k : nat) (h : heap) : res heap :=
  do x <- part h s p k; impl_free (fst x) (snd x) h.

(** [H]: what the cipher made of a block of zeros (16 bytes), or [None] if it failed *)
Definition block (d : bytes) : bytes := firstn 16 (d ++ repeat 0%N 16).

(** [method_session_init]: null.c L38-47, null-l2tp.c L55-64, cipher_test.c L74-85, generic_poly1305.c L90-99,
    generic_gmac.c L91-117, generic_umac.c L84-97, composed_gmac.c L117-148, composed_umac.c L110-127.
    The method's own data are those of its provider; others would be misinterpreted. *)
Definition session_init (X : chosen) (p : provider) (m : method) (secret : bytes) (H : option bytes) (h : heap)
  : res (heap * option nat) :=
  let '(h, s) := alloc (Session p []) [] h in
  match p, m with
  | PlainNull, M_none | NullL2tp, M_none => Ok (h, Some s)
  | CipherTest, M_cipher c | GenericPoly1305, M_cipher c =>
      do h <- add_part s (the_cipher X c) secret 0 h;
      Ok (h, Some s)
  | GenericGmac, M_generic c x =>
      do h <- add_part s (the_cipher X c) secret 0 h;
      do _ <- use_part s p 0 h;
      match H with
      | None =>
          do h <- free_part s p 0 h;
          do h <- free h s;
          Ok (h, None)
      | Some H =>
          do h <- add_part s (the_mac X x) (block H) 0 h;
          Ok (h, Some s)
      end
  | GenericUmac, M_generic c x =>
      do h <- add_part s (the_cipher X c) secret 0 h;
      do h <- add_part s (the_mac X x) secret (cipher_keylen c) h;
      Ok (h, Some s)
  | ComposedGmac, M_composed c t x =>
      do h <- add_part s (the_cipher X c) secret 0 h;
      do h <- add_part s (the_cipher X t) secret (cipher_keylen c) h;
      do _ <- use_part s p 1 h;
      match H with
      | None =>
          do h <- free_part s p 0 h;
          do h <- free_part s p 1 h;
          do h <- free h s;
          Ok (h, None)
      | Some H =>
          do h <- add_part s (the_mac X x) (block H) 0 h;
          Ok (h, Some s)
      end
  | ComposedUmac, M_composed c t x =>
      do h <- add_part s (the_cipher X c) secret 0 h;
      do h <- add_part s (the_cipher X t) secret (cipher_keylen c) h;
      do h <- add_part s (the_mac X x) secret (cipher_keylen c + cipher_keylen t) h;
      Ok (h, Some s)
  | _, _ => UB
  end.

Fixpoint free_parts (s : nat) (p : provider) (k n : nat) (h : heap) : res heap :=
  match n with
  | O => Ok h
  | S n => do h <- free_part s p k h; free_parts s p (S k) n h
  end.
(** [method_session_free]: null.c L75-77, null-l2tp.c L92-94, cipher_test.c L108-113, generic_poly1305.c L122-127,
    generic_gmac.c L140-147, generic_umac.c L120-127, composed_gmac.c L174-182, composed_umac.c L150-158 *)
Definition session_free (p : provider) (st : option nat) (h : heap) : res heap :=
  match st with
  | None => Ok h
  | Some s =>
      do _ <- session h p s;
      do h <- free_parts s p 0 (fields p) h;
      free h s
  end.

Fixpoint use_parts (s : nat) (p : provider) (k n : nat) (h : heap) : res unit :=
  match n with
  | O => Ok tt
  | S n => do _ <- use_part s p k h; use_parts s p (S k) n h
  end.
(** [encrypt] and [decrypt], as far as the session's memory is concerned *)
Definition session_use (p : provider) (st : option nat) (h : heap) : res unit :=
  match st with
  | None => UB
  | Some s => do _ <- session h p s; use_parts s p 0 (fields p) h
  end.
(** [session_is_initiator], [session_want_refresh], [session_superseded] *)
Definition session_touch (p : provider) (st : option nat) (h : heap) : res unit :=
  match st with
  | None => UB
  | Some s => do _ <- session h p s; Ok tt
  end.
(** [session_is_valid]: false for NULL, otherwise as the session's state and the time say *)
Definition session_valid (p : provider) (st : option nat) (h : heap) (answer : bool) : res bool :=
  match st with
  | None => Ok false
  | Some s => do _ <- session h p s; Ok answer
  end.

(** * Sessions of peers *)

(** [protocol_session_t]: the method is an index of [conf.methods] *)
Record slot := mk_slot { sl_method : option nat; sl_state : option nat }.
Definition no_slot : slot := mk_slot None None.
(** The protocol state of a peer: where it is, its sessions.  The handshake cache ([sigma], [shared_handshake_key]) is in the object's contents. *)
Record pst := mk_pst { p_cell : nat; p_old : slot; p_cur : slot }.
Definition CACHE : nat := 64.

Record st := mk_st {
  s_heap : heap;
  s_peers : list (N * pst);
  s_methods : option (list (provider * method)) (* [conf.methods]; [None] after [destroy_methods] *)
}.
Definition set_heap (h : heap) (s : st) : st := mk_st h (s_peers s) (s_methods s).
Fixpoint find_peer (l : list (N * pst)) (i : N) : option pst :=
  match l with [] => None | (j, p) :: r => if N.eqb i j then Some p else find_peer r i end.
Definition set_peer (i : N) (p : pst) (s : st) : st :=
  mk_st (s_heap s) (map (fun x => if N.eqb i (fst x) then (i, p) else x) (s_peers s)) (s_methods s).
Definition del_peer (i : N) (s : st) : st :=
  mk_st (s_heap s) (filter (fun x => negb (N.eqb i (fst x))) (s_peers s)) (s_methods s).
Definition get_method (s : st) (k : nat) : res (provider * method) :=
  match s_methods s with
  | None => UB
  | Some l => match nth_error l k with Some x => Ok x | None => UB end
  end.

(** [is_session_valid], ec25519_fhmqvc.h L124-126 *)
Definition slot_valid (s : st) (x : slot) (answer : bool) : res bool :=
  match sl_method x with
  | None => Ok false
  | Some k => do m <- get_method s k; session_valid (fst m) (sl_state x) (s_heap s) answer
  end.
(** x.method->provider->session_free(x.method_state) *)
Definition slot_free (x : slot) (s : st) : res st :=
  match sl_method x with
  | None => UB
  | Some k => do m <- get_method s k; do h <- session_free (fst m) (sl_state x) (s_heap s); Ok (set_heap h s)
  end.
Definition slot_use (s : st) (x : slot) : res unit :=
  match sl_method x with
  | None => UB
  | Some k => do m <- get_method s k; session_use (fst m) (sl_state x) (s_heap s)
  end.
Definition slot_touch (s : st) (x : slot) : res unit :=
  match sl_method x with
  | None => UB
  | Some k => do m <- get_method s k; session_touch (fst m) (sl_state x) (s_heap s)
  end.

(** [reset_session], state.c L76-80: the result is the zeroed slot *)
Definition reset_session (x : slot) (s : st) : res st :=
  match sl_method x with None => Ok s | Some _ => slot_free x s end.
(** [fastd_protocol_ec25519_fhmqvc_reset_peer_state], state.c L83-89 *)
Definition reset_peer_state (i : N) (s : st) : res st :=
  match find_peer (s_peers s) i with
  | None => Ok s
  | Some p =>
      do _ <- load (s_heap s) (p_cell p);
      do s <- reset_session (p_old p) s;
      do s <- reset_session (p_cur p) s;
      Ok (set_peer i (mk_pst (p_cell p) no_slot no_slot) s)
  end.
(** [fastd_protocol_ec25519_fhmqvc_free_peer_state], state.c L92-99; the peer is then freed *)
Definition free_peer_state (i : N) (s : st) : res st :=
  match find_peer (s_peers s) i with
  | None => Ok s
  | Some p =>
      do _ <- load (s_heap s) (p_cell p);
      do s <- reset_session (p_old p) s;
      do s <- reset_session (p_cur p) s;
      do h <- free (s_heap s) (p_cell p);
      Ok (del_peer i (set_heap h s))
  end.
(** [fastd_protocol_ec25519_fhmqvc_init_peer_state], state.c L65-73: the memory is zeroed *)
Definition init_peer_state (i : N) (s : st) : res st :=
  match find_peer (s_peers s) i with
  | Some _ => Bug
  | None =>
      let '(h, c) := alloc Peer (repeat 0%N CACHE) (s_heap s) in
      Ok (mk_st h ((i, mk_pst c no_slot no_slot) :: s_peers s) (s_methods s))
  end.

(** What the environment answers during one event *)
Record answers := mk_answers {
  a_cur : bool; a_old : bool;         (* whether the sessions are valid *)
  a_initiator : bool;                 (* whether this node initiated the new session *)
  a_dec_old : bool; a_dec_cur : bool; (* whether the packet can be decrypted *)
  a_cleaned : bool                    (* [handshakes_cleaned] *)
}.

(** [supersede_session], handshake.c L59-82 *)
Definition supersede_session (i : N) (k : nat) (a : answers) (s : st) : res st :=
  match find_peer (s_peers s) i with
  | None => UB
  | Some p =>
      do vc <- slot_valid s (p_cur p) (a_cur a);
      do vo <- (if vc then slot_valid s (p_old p) (a_old a) else Ok false);
      do r <- (if vc && negb vo then
                 do s <- (match sl_method (p_old p) with Some _ => slot_free (p_old p) s | None => Ok s end);
                 Ok (s, mk_pst (p_cell p) (p_cur p) (p_cur p))
               else
                 do s <- (match sl_method (p_cur p) with Some _ => slot_free (p_cur p) s | None => Ok s end);
                 Ok (s, p));
      let '(s, p) := r in
      match sl_method (p_old p) with
      | None => Ok (set_peer i p s)
      | Some j =>
          if negb (Nat.eqb j k) then
            do s <- slot_free (p_old p) s;
            Ok (set_peer i (mk_pst (p_cell p) no_slot (p_cur p)) s)
          else
            do _ <- slot_touch s (p_old p);
            Ok (set_peer i p s)
      end
  end.

(** handshake.c L92-94: the secret is derived in blocks of 32 bytes; [secret] is what was derived *)
Definition blocks (n : nat) : nat := (n + 31) / 32.
Definition fit (n : nat) (d : bytes) : bytes := firstn n (d ++ repeat 0%N n).

(** [new_session], handshake.c L85-108 *)
Definition new_session (X : chosen) (i : N) (k : nat) (secret : bytes) (H : option bytes) (a : answers) (s : st) : res (st * bool) :=
  do s <- supersede_session i k a s;
  do m <- get_method s k;
  let b := blocks (key_length (fst m) (snd m)) in
  let secret := fit (32 * (if Nat.eqb b 0 then 1 else b)) secret in
  do r <- session_init X (fst m) (snd m) secret H (s_heap s);
  let '(h, state) := r in
  let s := set_heap h s in
  match find_peer (s_peers s) i with
  | None => UB
  | Some p =>
      match state with
      | None => Ok (set_peer i (mk_pst (p_cell p) (p_old p) (mk_slot (sl_method (p_cur p)) None)) s, false)
      | Some _ => Ok (set_peer i (mk_pst (p_cell p) (p_old p) (mk_slot (Some k) state)) s, true)
      end
  end.

(** [clear_shared_handshake_key], handshake.c L272-278; setting the cache, L260-266 *)
Definition set_cache (i : N) (d : bytes) (s : st) : res st :=
  match find_peer (s_peers s) i with
  | None => UB
  | Some p => do c <- load (s_heap s) (p_cell p); Ok (set_heap (upd (s_heap s) (p_cell p) (mk_cell (c_what c) d true)) s)
  end.

(** [establish], handshake.c L111-153, from [new_session] on: [up] is the result of [fastd_peer_set_established];
    the responder sends an empty packet *)
Definition establish (X : chosen) (i : N) (k : nat) (secret : bytes) (H : option bytes) (up initiator : bool) (a : answers) (s : st) : res st :=
  do r <- new_session X i k secret H a s;
  let '(s, ok) := r in
  if negb ok then reset_peer_state i s
  else if negb up then reset_peer_state i s
  else if initiator then Ok s
  else match find_peer (s_peers s) i with None => UB | Some p => do _ <- slot_use s (p_cur p); Ok s end.

(** [protocol_handle_recv], ec25519_fhmqvc.c L111-163; [check_session], L88-95; [check_session_refresh], L29-38 *)
Definition recv (i : N) (a : answers) (s : st) : res st :=
  match find_peer (s_peers s) i with
  | None => Ok s
  | Some p =>
      do v <- slot_valid s (p_cur p) (a_cur a);
      if negb v then reset_peer_state i s else
      do vo <- slot_valid s (p_old p) (a_old a);
      do got <- (if vo then do _ <- slot_use s (p_old p); Ok (a_dec_old a) else Ok false);
      if got : bool then Ok s else
      do _ <- slot_use s (p_cur p);
      if negb (a_dec_cur a) then Ok s else
      do r <- (match sl_method (p_old p) with
               | Some _ => do s <- slot_free (p_old p) s; Ok (s, mk_pst (p_cell p) no_slot (p_cur p))
               | None => Ok (s, p)
               end);
      let '(s, p) := r in
      let s := set_peer i p s in
      do _ <- (if a_cleaned a then Ok tt
               else do _ <- slot_touch s (p_cur p); if a_initiator a then slot_use s (p_cur p) else Ok tt);
      do _ <- slot_touch s (p_cur p);
      Ok s
  end.

(** [protocol_send], ec25519_fhmqvc.c L184-198; [use_old_session], L98-106 *)
Definition send (i : N) (a : answers) (s : st) : res st :=
  match find_peer (s_peers s) i with
  | None => Ok s
  | Some p =>
      do v <- slot_valid s (p_cur p) (a_cur a);
      if negb v then reset_peer_state i s else
      do _ <- slot_touch s (p_cur p);
      do _ <- slot_touch s (p_cur p);
      do vo <- (if a_initiator a then slot_valid s (p_old p) (a_old a) else Ok false);
      do _ <- slot_use s (if vo : bool then p_old p else p_cur p);
      Ok s
  end.

Inductive event :=
| Join (i : N)                                                   (* a peer is added *)
| Respond (i : N) (cache : bytes)                                (* a handshake is answered, the cache set *)
| Established (i : N) (k : nat) (secret : bytes) (H : option bytes) (up : bool) (a : answers)  (* after our own request was answered *)
| Finished (i : N) (k : nat) (secret : bytes) (H : option bytes) (up : bool) (a : answers)     (* [handle_finish_handshake], L396-399 *)
| Recv (i : N) (a : answers) | Send (i : N) (a : answers)
| Reset (i : N)                                                  (* [fastd_peer_reset] *)
| Delete (i : N)                                                 (* [fastd_peer_delete] *).

Definition step (X : chosen) (e : event) (s : st) : res st :=
  match e with
  | Join i => init_peer_state i s
  | Respond i d => set_cache i (fit CACHE d) s
  | Established i k secret H up a => establish X i k secret H up true a s
  | Finished i k secret H up a =>
      do s <- establish X i k secret H up false a s; set_cache i (repeat 0%N CACHE) s
  | Recv i a => recv i a s
  | Send i a => send i a s
  | Reset i => reset_peer_state i s
  | Delete i => free_peer_state i s
  end.
Fixpoint run (X : chosen) (l : list event) (s : st) : res st :=
  match l with [] => Ok s | e :: r => do s <- step X e s; run X r s end.

(** The end, fastd.c L601-604 and L613-650: all peers are deleted, then the methods *)
Fixpoint delete_peers (l : list (N * pst)) (s : st) : res st :=
  match l with [] => Ok s | x :: r => do s <- free_peer_state (fst x) s; delete_peers r s end.
Definition cleanup (s : st) : res st :=
  do s <- delete_peers (s_peers s) s; Ok (mk_st (s_heap s) (s_peers s) None).

Definition start (methods : list (provider * method)) : st := mk_st [] [] (Some methods).
