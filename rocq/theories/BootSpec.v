(** What the run modes are to do, and when the program starts *)
From Verif Require Import Base BufferModel MethodModel AddrModel LexModel KexModel KexSpec HexModel HexSpec ConfigModel OptionsModel PrivModel PrivSpec BootModel.
From Verif Require NameModel NameSpec.
From Coq Require Import String.

(** A build on a machine as they are: 32 random bytes, a group as libuecc implements it, which stores points as bytes *)
Record host_ok (H : host) : Prop := {
  ho_names : NameSpec.env_ok (h_names H);
  ho_laws : laws (h_kex H);
  ho_store : forall p, wf_bytes (k_store (h_kex H) p);
  ho_random : forall r, h_random H = Some r -> word256 r }.

(** The names of methods that occur anywhere *)
Definition named (c : conf) (s : bytes) : Prop := exists g, In g (c_groups c) /\ In s (gc_methods g).
Definition names_ok (c : conf) : Prop := forall s, named c s -> NameSpec.c_string s /\ s <> [].
(** A name of a method that the build has and this machine supports *)
Definition supported (H : host) (s : bytes) (p : NameModel.provider) (m : NameModel.method) : Prop :=
  In p (h_methods H) /\ NameSpec.supports (h_names H) m /\ exists t, s = NameModel.str t /\ NameSpec.denotes t p m.

(** Peers can come from peer directories or from a verify command *)
Definition with_dirs (c : conf) : Prop := exists g, In g (c_groups c) /\ gc_dirs g <> [].
Definition with_verify (H : host) (c : conf) : Prop := h_dynamic H = true /\ c_verify c <> None.

(** Android: TUN mode and exactly one peer for ever; offloading of L2TP: multi-TAP mode, interfaces that are not persistent *)
Definition base_ok (H : host) (c : conf) : Prop :=
  (h_android H = true -> c_mode c = Tun /\ ~ with_dirs c /\ ~ with_verify H c /\ exists q, c_peers c = [q]) /\
  (h_l2tp H = true -> c_offload c = true -> c_mode c = Multitap /\ c_persist c = false).
(** The configuration with which the program would run is consistent *)
Definition config_ok (H : host) (c : conf) : Prop := base_ok H c /\ forall s, named c s -> exists p m, supported H s p m.

(** Somebody to talk to *)
Definition peers_ok (H : host) (c : conf) : Prop := c_peers c <> [] \/ with_dirs c \/ with_verify H c.
(** Without a method in the default group there is one more *)
Definition bare (c : conf) : Prop := exists g, nth_error (c_groups c) 0 = Some g /\ gc_methods g = [].
Definition in_use (c : conf) (s : bytes) : Prop := named c s \/ (bare c /\ s = NameModel.str "null").
Definition start_ok (H : host) (c : conf) : Prop :=
  base_ok H c /\ peers_ok H c /\ h_sodium H = true /\ (exists uid gid, target (h_sys H) c (h_cred H) uid gid) /\
  forall s, in_use c s -> exists p m, supported H s p m.

(** The secret: 64 hexadecimal digits, of a number divisible by 8 *)
Definition secret_is (c : conf) (k : bytes) : Prop :=
  exists s, c_secret c = Some s /\ spells s k /\ List.length k = 32%nat /\ (le_val k mod 8 = 0)%N.
(** The public key to it *)
Definition public_key (H : host) (k : bytes) : bytes := k_store (h_kex H) (smul (h_kex H) (le_val k) (k_base (h_kex H))).
(** 64 digits in lower case *)
Definition digits_of (s k : bytes) : Prop := spells s k /\ forall c, In c s -> ~ is_capital c.
Definition line (label s : bytes) : bytes := label ++ s ++ [10%N].
Definition Secret_ : bytes := NameModel.str "Secret: ".
Definition Public_ : bytes := NameModel.str "Public: ".

(** What the start leaves behind *)
Record state_ok (H : host) (c : conf) (key : bytes) (k : keypair) (x : checked) : Prop := {
  so_public : kp_public k = public_key H key;
  so_secret : (le_val (kp_secret k) * 8 = le_val key)%N;
  so_user : target (h_sys H) c (h_cred H) (k_uid x) (k_gid x);
  so_groups : k_groups x = match c_user c with Some u => Some (s_list (h_sys H) u (k_gid x)) | None => None end;
  (* exactly the methods in use are found by their names *)
  so_methods : forall s, in_use c s -> exists p m, supported H s p m /\ NameModel.get_by_name (k_table x) s = Ok (Some (s, p, m));
  so_no_methods : forall s, ~ in_use c s -> NameModel.get_by_name (k_table x) s = Ok None;
  (* the configuration is the same but for the method null *)
  so_conf : k_conf x = c /\ ~ bare c \/ k_conf x = update_group 0 (set_gc_methods [NameModel.str "null"]) c /\ bare c }.

Definition init_events (o : ost) : list event := Signals :: (if o_daemon o then [Daemonize] else []) ++ [Chdir; InitLog].
