(** What is expected of the implementations of ciphers and MACs and of the memory of sessions *)
From Verif Require Import Base BufferModel MethodModel NameModel NameSpec ImplModel.
From Coq Require Import String.

(** * Which processor can run what: the bits of EDX (0-31) and ECX (32-63) that CPUID function 1 yields;
    SSE2 is EDX bit 26, FXSR EDX bit 24, PCLMULQDQ ECX bit 1, SSSE3 ECX bit 9 (Intel SDM, volume 2, CPUID) *)
Definition edx (cpu : N) (bit : N) : Prop := N.testbit cpu bit = true.
Definition ecx (cpu : N) (bit : N) : Prop := N.testbit cpu (32 + bit) = true.
Definition runs (cpu : N) (i : impl) : Prop :=
  match i with
  | Salsa20Xmm | Salsa2012Xmm => edx cpu 26
  | GhashPclmulqdq => edx cpu 24 /\ ecx cpu 1 /\ ecx cpu 9
  | _ => True
  end.

(** What an implementation implements, and its name in the configuration *)
Definition algorithm (i : impl) : string :=
  match i with
  | AesOpenssl => "aes128-ctr" | NullMemcpy => "null" | Salsa20Xmm | Salsa20Nacl => "salsa20"
  | Salsa2012Xmm | Salsa2012Nacl => "salsa2012" | GhashPclmulqdq | GhashBuiltin => "ghash" | UhashBuiltin => "uhash"
  end%string.
Definition variant (i : impl) : string :=
  match i with
  | AesOpenssl => "openssl" | NullMemcpy => "memcpy" | Salsa20Xmm | Salsa2012Xmm => "xmm" | Salsa20Nacl | Salsa2012Nacl => "nacl"
  | GhashPclmulqdq => "pclmulqdq" | GhashBuiltin | UhashBuiltin => "builtin"
  end%string.
Definition is_mac (i : impl) : bool := match i with GhashPclmulqdq | GhashBuiltin | UhashBuiltin => true | _ => false end.
(** What was compiled *)
Definition compiled (B : build) (i : impl) : bool :=
  match i with
  | AesOpenssl => b_aes B | NullMemcpy => b_null B
  | Salsa20Xmm => b_salsa20 B && b_salsa20_xmm B | Salsa20Nacl => b_salsa20 B && b_salsa20_nacl B
  | Salsa2012Xmm => b_salsa2012 B && b_salsa2012_xmm B | Salsa2012Nacl => b_salsa2012 B && b_salsa2012_nacl B
  | GhashPclmulqdq => b_ghash B && b_ghash_pclmulqdq B | GhashBuiltin => b_ghash B | UhashBuiltin => b_uhash B
  end.
Definition usable (B : build) (cpu : N) (i : impl) : Prop := compiled B i = true /\ runs cpu i.
(** The faster of two implementations comes first. *)
Definition fast (i : impl) : bool := match i with Salsa20Xmm | Salsa2012Xmm | GhashPclmulqdq => true | _ => false end.

(** The statement (n, v), "cipher n use v" or "mac n use v", asks for i. *)
Definition asks (x : bytes * bytes) (i : impl) : Prop := x = (str (algorithm i), str (variant i)).
(** Nothing said about n *)
Definition silent (n : bytes) (l : list (bytes * bytes)) : Prop := forall v, ~ In (n, v) l.
(** i is to be used for its algorithm: the last statement about it asks for i, or there is none and no faster one can be used. *)
Definition wanted (B : build) (cpu : N) (l : list (bytes * bytes)) (i : impl) : Prop :=
  (exists l1 x l2, l = l1 ++ x :: l2 /\ asks x i /\ silent (str (algorithm i)) l2) \/
  (silent (str (algorithm i)) l /\ usable B cpu i /\ (fast i = true \/ forall j, algorithm j = algorithm i -> fast j = true -> ~ usable B cpu j)).

(** * Memory *)

(** The objects that a part of a session, a session, a slot and a peer hold *)
Definition holds_part (h : heap) (x : impl * option nat) : list nat :=
  match snd x with
  | None => []
  | Some q => q :: match nth_error h q with Some (mk_cell (State _ (Some e)) _ _) => [e] | _ => [] end
  end.
Definition holds_session (h : heap) (s : nat) : list nat :=
  s :: match nth_error h s with Some (mk_cell (Session _ parts) _ _) => flat_map (holds_part h) parts | _ => [] end.
Definition holds_slot (h : heap) (x : slot) : list nat := match sl_state x with None => [] | Some s => holds_session h s end.
Definition holds_peer (h : heap) (p : pst) : list nat := p_cell p :: holds_slot h (p_old p) ++ holds_slot h (p_cur p).
Definition holds (s : st) : list nat := flat_map (fun x => holds_peer (s_heap s) (snd x)) (s_peers s).

Definition is_live (h : heap) (q : nat) : Prop := exists c, nth_error h q = Some c /\ c_live c = true.
Definition is_freed (h : heap) (q : nat) (c : cell) : Prop := nth_error h q = Some c /\ c_live c = false.
Definition clean (c : cell) : Prop := Forall (fun b => b = 0%N) (c_data c).
Definition is_peer (c : cell) : Prop := c_what c = Peer.

(** Histories that can happen: [n] methods are configured, [P] are the present peers. *)
Fixpoint sound (n : nat) (P : list N) (l : list event) : Prop :=
  match l with
  | [] => True
  | Join i :: r => ~ In i P /\ sound n (i :: P) r
  | Respond i _ :: r => In i P /\ sound n P r
  | Established i k _ _ _ _ :: r | Finished i k _ _ _ _ :: r => In i P /\ k < n /\ sound n P r
  | Recv _ _ :: r | Send _ _ :: r | Reset _ :: r => sound n P r
  | Delete i :: r => sound n (remove N.eq_dec i P) r
  end.

(** A program that was configured: some build, some processor, the statements about ciphers and MACs were accepted, and
    every method was found by some name. *)
Record configured (B : build) (cpu : N) (lc lm : list (bytes * bytes)) (X : chosen) (ms : list (provider * method)) : Prop := {
  cf_ciphers : x_ciphers X = ciphers B;
  cf_macs : x_macs X = macs B;
  cf_cc : choose ci_name cpu (ciphers B) lc = Ok (x_cc X);
  cf_mc : choose mac_name cpu (macs B) lm = Ok (x_mc X);
  cf_methods : forall p m, In (p, m) ms -> exists ps name, c_string name /\ name <> [] /\
      create_by_name (lookup_env B (x_cc X) (x_mc X)) ps name = Ok (Some (p, m))
}.

(** The key in a part of a session *)
Definition data_of (h : heap) (q : nat) : bytes := match nth_error h q with Some c => c_data c | None => [] end.
Definition key_in (h : heap) (x : impl * option nat) : bytes := flat_map (data_of h) (holds_part h x).
Definition parts_of (h : heap) (s : nat) : list (impl * option nat) :=
  match nth_error h s with Some (mk_cell (Session _ parts) _ _) => parts | _ => [] end.
(** The algorithms of a method, in the order of the keys; GHASH gets its key from the cipher. *)
Definition algorithms (m : method) : list bytes :=
  match m with M_none => [] | M_cipher c => [ci_name c] | M_generic c x => [ci_name c; x] | M_composed c t x => [ci_name c; ci_name t; x] end.
Definition derived (x : impl * option nat) : bool := match fst x with GhashPclmulqdq | GhashBuiltin => false | _ => true end.
