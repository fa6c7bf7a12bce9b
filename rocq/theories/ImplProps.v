(** Theorems about the implementations of ciphers and MACs and the memory of sessions *)
From Verif Require Import Base BufferModel MethodModel NameModel NameSpec ImplModel ImplSpec ImplProofs ImplProofs5.
From Coq Require Import String.
Notation length := List.length.

(** C77: with whatever was compiled, on whatever processor and for all statements "cipher n use v" that are accepted, the
    implementation that is used is the one that the last statement names, otherwise the fastest usable one; the same for MACs. *)
Theorem C77_choice : forall B cpu l c,
  (choose ci_name cpu (ciphers B) l = Ok c -> forall x i, In x (map fst (ciphers B)) ->
     get_impl ci_name (ciphers B) c x = Some i <-> ci_name x = str (algorithm i) /\ is_mac i = false /\ wanted B cpu l i) /\
  (choose mac_name cpu (macs B) l = Ok c -> forall x i, In x (map fst (macs B)) ->
     get_impl mac_name (macs B) c x = Some i <-> x = str (algorithm i) /\ is_mac i = true /\ wanted B cpu l i).
Proof. exact choice_both. Qed.
Print Assumptions C77_choice.

(** The statements are refused exactly if one of them names nothing that was compiled and runs on the processor. *)
Theorem C77_refused : forall B cpu l,
  (choose ci_name cpu (ciphers B) l = Fatal <-> exists x, In x l /\ ~ exists i, asks x i /\ usable B cpu i /\ is_mac i = false) /\
  (choose mac_name cpu (macs B) l = Fatal <-> exists x, In x l /\ ~ exists i, asks x i /\ usable B cpu i /\ is_mac i = true) /\
  ((exists c, choose ci_name cpu (ciphers B) l = Ok c) \/ choose ci_name cpu (ciphers B) l = Fatal) /\
  ((exists c, choose mac_name cpu (macs B) l = Ok c) \/ choose mac_name cpu (macs B) l = Fatal).
Proof. exact refused_both. Qed.
Print Assumptions C77_refused.

(** No implementation is ever used that the processor does not run. *)
Theorem C77_runs : forall B cpu l c,
  (choose ci_name cpu (ciphers B) l = Ok c -> forall x i, In x (map fst (ciphers B)) -> get_impl ci_name (ciphers B) c x = Some i -> usable B cpu i) /\
  (choose mac_name cpu (macs B) l = Ok c -> forall x i, In x (map fst (macs B)) -> get_impl mac_name (macs B) c x = Some i -> usable B cpu i).
Proof. exact runs_both. Qed.
Print Assumptions C77_runs.

(** A cipher or MAC is found by name exactly if it has a usable implementation. *)
Theorem C77_found : forall B cpu l c n,
  (choose ci_name cpu (ciphers B) l = Ok c -> (exists x, by_name ci_name (ciphers B) c n = Some x) <-> exists i, usable B cpu i /\ is_mac i = false /\ n = str (algorithm i)) /\
  (choose mac_name cpu (macs B) l = Ok c -> (exists x, by_name mac_name (macs B) c n = Some x) <-> exists i, usable B cpu i /\ is_mac i = true /\ n = str (algorithm i)).
Proof. exact found_both. Qed.
Print Assumptions C77_found.

(** Whatever peers come and go and whatever sessions are established, used, superseded and lost: no object is used after it was freed,
    freed twice, or used as something else. *)
Theorem C77_safe : forall B cpu lc lm X ms, configured B cpu lc lm X ms -> forall l, sound (length ms) [] l ->
  exists s s', run X l (start ms) = Ok s /\ cleanup s = Ok s'.
Proof. exact conf_safe. Qed.
Print Assumptions C77_safe.

(** The objects that are there are exactly those that the peers' sessions hold, each held once. *)
Theorem C77_account : forall B cpu lc lm X ms, configured B cpu lc lm X ms -> forall l s, sound (length ms) [] l -> run X l (start ms) = Ok s ->
  NoDup (holds s) /\ forall q, In q (holds s) <-> is_live (s_heap s) q.
Proof. exact conf_account. Qed.
Print Assumptions C77_account.

(** Nothing is left at the end. *)
Theorem C77_end : forall B cpu lc lm X ms, configured B cpu lc lm X ms -> forall l s s', sound (length ms) [] l -> run X l (start ms) = Ok s -> cleanup s = Ok s' ->
  forall q, ~ is_live (s_heap s') q.
Proof. exact conf_end. Qed.
Print Assumptions C77_end.

(** All memory of sessions that was given back was overwritten before: no key of a session is left in it. *)
Theorem C77_wiped : forall B cpu lc lm X ms, configured B cpu lc lm X ms -> forall l s, sound (length ms) [] l ->
  (run X l (start ms) = Ok s \/ exists s0, run X l (start ms) = Ok s0 /\ cleanup s0 = Ok s) ->
  forall q c, is_freed (s_heap s) q c -> ~ is_peer c -> clean c.
Proof. exact conf_wiped. Qed.
Print Assumptions C77_wiped.

(** A session that was established uses the algorithms of its method with the implementations to be used; its keys are
    consecutive parts of the secret, none used twice and none left out, and the key of GHASH is the block that the cipher yielded. *)
Theorem C77_keys : forall B cpu lc lm X ms, configured B cpu lc lm X ms -> forall l i k secret H a e s p m,
  e = Established i k secret (Some H) true a \/ e = Finished i k secret (Some H) true a ->
  sound (length ms) [] (l ++ [e]) -> run X (l ++ [e]) (start ms) = Ok s -> nth_error ms k = Some (p, m) -> key_length p m <= length secret ->
  exists ps q, find_peer (s_peers s) i = Some ps /\ p_cur ps = mk_slot (Some k) (Some q) /\
    map (fun x => str (algorithm (fst x))) (parts_of (s_heap s) q) = algorithms m /\
    (forall x, In x (parts_of (s_heap s) q) -> usable B cpu (fst x) /\ wanted B cpu (if is_mac (fst x) then lm else lc) (fst x)) /\
    flat_map (key_in (s_heap s)) (filter derived (parts_of (s_heap s) q)) = firstn (key_length p m) secret /\
    (forall x, In x (parts_of (s_heap s) q) -> derived x = false -> key_in (s_heap s) x = block H).
Proof. exact conf_keys. Qed.
Print Assumptions C77_keys.

(** When the other side finished a handshake, the keys kept for it are overwritten. *)
Theorem C77_cache : forall B cpu lc lm X ms, configured B cpu lc lm X ms -> forall l i k secret H up a s,
  sound (length ms) [] (l ++ [Finished i k secret H up a]) -> run X (l ++ [Finished i k secret H up a]) (start ms) = Ok s ->
  exists p, find_peer (s_peers s) i = Some p /\ nth_error (s_heap s) (p_cell p) = Some (mk_cell Peer (repeat 0%N CACHE) true).
Proof. exact conf_cache. Qed.
Print Assumptions C77_cache.

(** A program with everything on a processor that has SSE2 and nothing else, told to use the plain Salsa20 *)
Definition everything : build := mk_build true true true true true true true true true true true.
Definition sse2 : N := (N.shiftl 1 24 + N.shiftl 1 26)%N.
Definition lc0 : list (bytes * bytes) := [(str "salsa20", str "xmm"); (str "salsa20", str "nacl")].
Definition the_choice : chosen :=
  match choose ci_name sse2 (ciphers everything) lc0, choose mac_name sse2 (macs everything) [] with
  | Ok c, Ok m => mk_chosen (ciphers everything) c (macs everything) m
  | _, _ => mk_chosen [] [] [] []
  end.
Definition ms0 : list (provider * method) :=
  [(GenericGmac, M_generic (ci Aes128Ctr) (str "ghash")); (ComposedGmac, M_composed (ci Null) (ci Salsa2012) (str "ghash")); (PlainNull, M_none);
   (GenericPoly1305, M_cipher (ci Salsa20))].

Example C77_chosen :
  x_cc the_choice = [Some AesOpenssl; Some NullMemcpy; Some Salsa20Nacl; Some Salsa2012Xmm] /\
  x_mc the_choice = [Some GhashBuiltin; Some UhashBuiltin] /\
  choose mac_name sse2 (macs everything) [(str "ghash", str "pclmulqdq")] = Fatal /\
  choose mac_name (sse2 + N.shiftl 1 33 + N.shiftl 1 41)%N (macs everything) [(str "ghash", str "pclmulqdq")] = Ok [Some GhashPclmulqdq; Some UhashBuiltin] /\
  choose ci_name 0 (ciphers everything) [] = Ok [Some AesOpenssl; Some NullMemcpy; Some Salsa20Nacl; Some Salsa2012Nacl].
Proof. repeat split. Qed.

Lemma ms0_configured : configured everything sse2 lc0 [] the_choice ms0.
Proof.
  constructor; try reflexivity. intros p m H.
  assert (C : forall s, forallb (fun b => negb (N.eqb b 0)) (str s) = true -> c_string (str s)).
  { intros s Hs Hz. rewrite forallb_forall in Hs. specialize (Hs _ Hz). discriminate. }
  destruct H as [H|[H|[H|[H|[]]]]]; injection H as <- <-.
  - exists all_providers, (str "aes128-gcm"). split; [apply C; reflexivity|]. split; [discriminate|reflexivity].
  - exists all_providers, (str "null+salsa2012+gmac"). split; [apply C; reflexivity|]. split; [discriminate|reflexivity].
  - exists all_providers, (str "null"). split; [apply C; reflexivity|]. split; [discriminate|reflexivity].
  - exists all_providers, (str "salsa20+poly1305"). split; [apply C; reflexivity|]. split; [discriminate|reflexivity].
Qed.

Definition yes : answers := mk_answers true false true false true false.
Definition key1 : bytes := repeat 17%N 32.
Definition history : list event :=
  [Join 1; Join 2; Respond 1 (repeat 9%N 64); Finished 1 0 key1 (Some (repeat 5%N 16)) true yes; Established 2 1 key1 (Some (repeat 6%N 16)) true yes;
   Established 2 1 key1 (Some (repeat 7%N 16)) true yes; Recv 1 yes; Send 2 yes; Recv 2 yes;
   Established 1 0 key1 None true yes; Established 2 3 key1 (Some []) true yes; Reset 1; Delete 2; Join 2; Finished 2 2 [] (Some []) true yes]%N.

(** Sessions established, superseded, failing and lost *)
Example C77_hypotheses_met : sound (length ms0) [] history /\
  exists s s', run the_choice history (start ms0) = Ok s /\ cleanup s = Ok s' /\
    List.length (s_heap s) = 19 /\ List.length (holds s) = 3 /\
    (exists ps, find_peer (s_peers s) 2%N = Some ps /\ exists q, p_cur ps = mk_slot (Some 2) (Some q)).
Proof.
  split; [cbn; intuition (try lia; try discriminate)|].
  eexists. eexists. split; [vm_compute; reflexivity|]. split; [vm_compute; reflexivity|]. split; [reflexivity|]. split; [reflexivity|]. eexists. split; [reflexivity|]. eexists. reflexivity.
Qed.
Example C77_keys_met : exists s ps q, run the_choice (firstn 6 history) (start ms0) = Ok s /\ find_peer (s_peers s) 2%N = Some ps /\ p_cur ps = mk_slot (Some 1) (Some q) /\
  map fst (parts_of (s_heap s) q) = [NullMemcpy; Salsa2012Xmm; GhashBuiltin] /\
  map (key_in (s_heap s)) (parts_of (s_heap s) q) = [[]; key1; repeat 7%N 16].
Proof. eexists. eexists. eexists. split; [vm_compute; reflexivity|]. split; [reflexivity|]. split; [reflexivity|]. split; reflexivity. Qed.

(** Not true of the states of peers: they are given back with the keys of a handshake that was answered and never finished. *)
Theorem C77_cache_refuted : ~ (forall B cpu lc lm X ms, configured B cpu lc lm X ms -> forall l s, sound (length ms) [] l -> run X l (start ms) = Ok s ->
  forall q c, is_freed (s_heap s) q c -> clean c).
Proof.
  intros H. specialize (H _ _ _ _ _ _ ms0_configured [Join 1%N; Respond 1%N (repeat 9%N 64); Delete 1%N]).
  assert (S0 : sound (length ms0) [] [Join 1%N; Respond 1%N (repeat 9%N 64); Delete 1%N]) by (cbn; intuition).
  specialize (H _ S0 eq_refl 0 (mk_cell Peer (repeat 9%N 64) false)). assert (F : clean (mk_cell Peer (repeat 9%N 64) false)) by (apply H; split; reflexivity).
  inversion F as [|x l E _]. discriminate.
Qed.
Print Assumptions C77_cache_refuted.
