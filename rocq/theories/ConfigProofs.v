(** The primitives of the configuration parser, and the statements without files. *)
From Verif Require Import Base BufferModel MethodModel AddrModel LexModel LexSpec HexSpec ConfigModel ConfigSpec.
From Coq Require Import String.
Local Open Scope N_scope.

(** * Tokens *)

Lemma word_eqb a b : bytes_eqb a b = true <-> a = b.
Proof. unfold bytes_eqb. destruct (list_eq_dec N.eq_dec a b); split; congruence. Qed.
Lemma tok_of_word k : tok_of (LKeyword (word k)) = TKey k.
Proof. destruct k; vm_compute; reflexivity. Qed.
Lemma tok_of_key l k : tok_of l = TKey k -> l = LKeyword (word k).
Proof.
  destruct l; cbn [tok_of]; try discriminate.
  destruct (find _ kws) as [k'|] eqn:F; [|discriminate].
  intros [= ->]. apply find_some in F. destruct F as [_ F]. apply word_eqb in F. rewrite F. reflexivity.
Qed.
Lemma tok_of_inj a b : tok_of a = tok_of b -> a = b.
Proof.
  intros H.
  destruct (tok_of b) eqn:Tb.
  9:{ apply tok_of_key in H, Tb. congruence. }
  all: destruct a; cbn [tok_of] in H; try discriminate;
    try (destruct (find _ kws) in H; discriminate);
    destruct b; cbn [tok_of] in Tb; try discriminate; try congruence;
    try (destruct (find _ kws) in Tb; discriminate).
  destruct (find _ kws) in H; [discriminate|]. destruct (find _ kws) in Tb; [discriminate|]. congruence.
Qed.
Lemma toks_inj a : forall b, map tok_of a = map tok_of b -> a = b.
Proof.
  induction a as [|x a IH]; intros [|y b] H; cbn [map] in H; try discriminate; [reflexivity|].
  injection H as H1 H2. apply tok_of_inj in H1. apply IH in H2. congruence.
Qed.
Lemma kw_eqb_eq a b : kw_eqb a b = true <-> a = b.
Proof.
  split; [|intros ->; apply word_eqb; reflexivity].
  unfold kw_eqb. intros H. apply word_eqb in H.
  assert (T : TKey a = TKey b) by (rewrite <- (tok_of_word a), <- (tok_of_word b), H; reflexivity).
  congruence.
Qed.
Lemma kw_eqb_refl a : kw_eqb a a = true.
Proof. apply kw_eqb_eq. reflexivity. Qed.

(** * Soundness of the primitives: what they have read and done *)

Definition yields {A} (m : M A) (s : pst) (a : A) (s' : pst) : Prop := m s = Ok (Some (a, s')).

Lemma bnd_inv {A B} (m : M A) (f : A -> M B) s b s' : yields (bnd m f) s b s' -> exists a s1, yields m s a s1 /\ yields (f a) s1 b s'.
Proof.
  unfold yields, bnd. destruct (m s) as [[[a s1]|]| | |] eqn:E; cbn [bind]; try discriminate.
  intros H. exists a, s1. split; [reflexivity|exact H].
Qed.
Lemma bnd_intro {A B} (m : M A) (f : A -> M B) s a s1 b s' : yields m s a s1 -> yields (f a) s1 b s' -> yields (bnd m f) s b s'.
Proof. unfold yields, bnd. intros -> H. exact H. Qed.
Lemma ret_inv {A} (a : A) s b s' : yields (ret a) s b s' -> b = a /\ s' = s.
Proof. unfold yields, ret. intros [= -> ->]. split; reflexivity. Qed.
Lemma fail_inv {A} s (b : A) s' : yields fail s b s' -> False.
Proof. discriminate. Qed.
Lemma fatal_inv {A} s (b : A) s' : yields fatal s b s' -> False.
Proof. discriminate. Qed.
Lemma ub_inv {A} s (b : A) s' : yields (fun _ => UB) s b s' -> False.
Proof. discriminate. Qed.
Lemma peek_inv ts c g p t s' : yields peek (Pst ts c g p) t s' -> exists r, ts = t :: r /\ s' = Pst (t :: r) c g p /\ (forall e, t <> TErr e).
Proof.
  unfold yields, peek. cbn [ps_toks]. destruct ts as [|x r]; [discriminate|].
  destruct x; intros [= <- <-]; (eexists; split; [reflexivity|split; [reflexivity|intros ?; discriminate]]).
Qed.
Lemma next_inv ts c g p t s' : yields next_tok (Pst ts c g p) t s' -> exists r, ts = t :: r /\ s' = Pst r c g p.
Proof.
  unfold yields, next_tok. cbn [ps_toks ps_conf ps_group ps_peer]. destruct ts as [|x r]; [discriminate|].
  destruct x; intros [= <- <-]; exists r; (split; reflexivity).
Qed.
Lemma modify_inv f ts c g p u s' : yields (modify f) (Pst ts c g p) u s' -> s' = Pst ts (f c) g p.
Proof. unfold yields, modify. cbn. intros [= _ <-]. reflexivity. Qed.
Lemma get_group_inv ts c g p n s' : yields get_group (Pst ts c g p) n s' -> n = g /\ s' = Pst ts c g p.
Proof. unfold yields, get_group. cbn. intros [= <- <-]. split; reflexivity. Qed.
Lemma modify_peer_inv f ts c g p u s' : yields (modify_peer f) (Pst ts c g p) u s' -> exists q, p = Some q /\ s' = Pst ts c g (Some (f q)).
Proof. unfold yields, modify_peer. cbn. destruct p as [q|]; [|discriminate]. intros [= _ <-]. exists q. split; reflexivity. Qed.
Lemma set_peer_inv q ts c g p u s' : yields (set_peer q) (Pst ts c g p) u s' -> s' = Pst ts c g q.
Proof. unfold yields, set_peer. cbn. intros [= _ <-]. reflexivity. Qed.
Lemma get_peer_inv ts c g p q s' : yields get_peer (Pst ts c g p) q s' -> q = p /\ s' = Pst ts c g p.
Proof. unfold yields, get_peer. cbn. intros [= <- <-]. split; reflexivity. Qed.
Lemma lift_inv {A} (r : res A) s a s' : yields (lift r) s a s' -> r = Ok a /\ s' = s.
Proof. unfold yields, lift. destruct r; cbn [bind]; try discriminate. intros [= -> ->]. split; reflexivity. Qed.

Ltac step H :=
  let a := fresh "a" in let s1 := fresh "s" in let H1 := fresh "H" in
  lazymatch type of H with yields (bnd _ _) _ _ _ => apply bnd_inv in H; destruct H as (a & s1 & H1 & H) end.
Ltac next H := step H;
  match goal with H1 : yields next_tok _ _ _ |- _ => let E := fresh "E" in apply next_inv in H1; destruct H1 as (? & E & ->); first [injection E as ? ?; subst | subst] end.

Lemma key_inv k ts c g p u s' : yields (key k) (Pst ts c g p) u s' -> exists r, ts = TKey k :: r /\ s' = Pst r c g p.
Proof.
  unfold key. intros H. next H. destruct a; try (apply fail_inv in H; contradiction).
  destruct (kw_eqb k k0) eqn:K; [|apply fail_inv in H; contradiction].
  apply kw_eqb_eq in K. subst k0. apply ret_inv in H. destruct H as [_ ->]. eexists. split; reflexivity.
Qed.
Lemma chr_inv x ts c g p u s' : yields (chr x) (Pst ts c g p) u s' -> exists r, ts = TChar x :: r /\ s' = Pst r c g p.
Proof.
  unfold chr. intros H. next H. destruct a; try (apply fail_inv in H; contradiction).
  destruct (N.eqb_spec x c0) as [->|]; [|apply fail_inv in H; contradiction].
  apply ret_inv in H. destruct H as [_ ->]. eexists. split; reflexivity.
Qed.
Lemma str_inv ts c g p v s' : yields str (Pst ts c g p) v s' -> exists r, ts = TStr v :: r /\ s' = Pst r c g p.
Proof.
  unfold str. intros H. next H. destruct a; try (apply fail_inv in H; contradiction).
  apply ret_inv in H. destruct H as [-> ->]. eexists. split; reflexivity.
Qed.
Lemma uint_inv ts c g p v s' : yields uint (Pst ts c g p) v s' -> exists r, ts = TUint v :: r /\ s' = Pst r c g p.
Proof.
  unfold uint. intros H. next H. destruct a; try (apply fail_inv in H; contradiction).
  apply ret_inv in H. destruct H as [-> ->]. eexists. split; reflexivity.
Qed.
Lemma opt_inv k ts c g p b s' : yields (opt k) (Pst ts c g p) b s' ->
  if b then exists r, ts = TKey k :: r /\ s' = Pst r c g p else s' = Pst ts c g p.
Proof.
  unfold opt. intros H. step H. apply peek_inv in H0. destruct H0 as (r & -> & -> & _).
  destruct a; try (apply ret_inv in H; destruct H as [-> ->]; reflexivity).
  destruct (kw_eqb k k0) eqn:K.
  - apply kw_eqb_eq in K. subst k0. next H. apply ret_inv in H. destruct H as [-> ->]. eexists. split; reflexivity.
  - apply ret_inv in H. destruct H as [-> ->]. reflexivity.
Qed.

(** The tokens of the words *)
Lemma tk_addresses : tok_of (K "addresses") = TKey Kaddresses. Proof. exact (tok_of_word Kaddresses). Qed.
Lemma tk_any : tok_of (K "any") = TKey Kany. Proof. exact (tok_of_word Kany). Qed.
Lemma tk_as : tok_of (K "as") = TKey Kas. Proof. exact (tok_of_word Kas). Qed.
Lemma tk_async : tok_of (K "async") = TKey Kasync. Proof. exact (tok_of_word Kasync). Qed.
Lemma tk_auto : tok_of (K "auto") = TKey Kauto. Proof. exact (tok_of_word Kauto). Qed.
Lemma tk_bind : tok_of (K "bind") = TKey Kbind. Proof. exact (tok_of_word Kbind). Qed.
Lemma tk_capabilities : tok_of (K "capabilities") = TKey Kcapabilities. Proof. exact (tok_of_word Kcapabilities). Qed.
Lemma tk_cipher : tok_of (K "cipher") = TKey Kcipher. Proof. exact (tok_of_word Kcipher). Qed.
Lemma tk_connect : tok_of (K "connect") = TKey Kconnect. Proof. exact (tok_of_word Kconnect). Qed.
Lemma tk_debug : tok_of (K "debug") = TKey Kdebug. Proof. exact (tok_of_word Kdebug). Qed.
Lemma tk_debug2 : tok_of (K "debug2") = TKey Kdebug2. Proof. exact (tok_of_word Kdebug2). Qed.
Lemma tk_default : tok_of (K "default") = TKey Kdefault. Proof. exact (tok_of_word Kdefault). Qed.
Lemma tk_disestablish : tok_of (K "disestablish") = TKey Kdisestablish. Proof. exact (tok_of_word Kdisestablish). Qed.
Lemma tk_down : tok_of (K "down") = TKey Kdown. Proof. exact (tok_of_word Kdown). Qed.
Lemma tk_drop : tok_of (K "drop") = TKey Kdrop. Proof. exact (tok_of_word Kdrop). Qed.
Lemma tk_early : tok_of (K "early") = TKey Kearly. Proof. exact (tok_of_word Kearly). Qed.
Lemma tk_error : tok_of (K "error") = TKey Kerror. Proof. exact (tok_of_word Kerror). Qed.
Lemma tk_establish : tok_of (K "establish") = TKey Kestablish. Proof. exact (tok_of_word Kestablish). Qed.
Lemma tk_fatal : tok_of (K "fatal") = TKey Kfatal. Proof. exact (tok_of_word Kfatal). Qed.
Lemma tk_float : tok_of (K "float") = TKey Kfloat. Proof. exact (tok_of_word Kfloat). Qed.
Lemma tk_force : tok_of (K "force") = TKey Kforce. Proof. exact (tok_of_word Kforce). Qed.
Lemma tk_forward : tok_of (K "forward") = TKey Kforward. Proof. exact (tok_of_word Kforward). Qed.
Lemma tk_from : tok_of (K "from") = TKey Kfrom. Proof. exact (tok_of_word Kfrom). Qed.
Lemma tk_group : tok_of (K "group") = TKey Kgroup. Proof. exact (tok_of_word Kgroup). Qed.
Lemma tk_handshakes : tok_of (K "handshakes") = TKey Khandshakes. Proof. exact (tok_of_word Khandshakes). Qed.
Lemma tk_hide : tok_of (K "hide") = TKey Khide. Proof. exact (tok_of_word Khide). Qed.
Lemma tk_include : tok_of (K "include") = TKey Kinclude. Proof. exact (tok_of_word Kinclude). Qed.
Lemma tk_info : tok_of (K "info") = TKey Kinfo. Proof. exact (tok_of_word Kinfo). Qed.
Lemma tk_interface : tok_of (K "interface") = TKey Kinterface. Proof. exact (tok_of_word Kinterface). Qed.
Lemma tk_ip : tok_of (K "ip") = TKey Kip. Proof. exact (tok_of_word Kip). Qed.
Lemma tk_ipv4 : tok_of (K "ipv4") = TKey Kipv4. Proof. exact (tok_of_word Kipv4). Qed.
Lemma tk_ipv6 : tok_of (K "ipv6") = TKey Kipv6. Proof. exact (tok_of_word Kipv6). Qed.
Lemma tk_key : tok_of (K "key") = TKey Kkey. Proof. exact (tok_of_word Kkey). Qed.
Lemma tk_l2tp : tok_of (K "l2tp") = TKey Kl2tp. Proof. exact (tok_of_word Kl2tp). Qed.
Lemma tk_level : tok_of (K "level") = TKey Klevel. Proof. exact (tok_of_word Klevel). Qed.
Lemma tk_limit : tok_of (K "limit") = TKey Klimit. Proof. exact (tok_of_word Klimit). Qed.
Lemma tk_log : tok_of (K "log") = TKey Klog. Proof. exact (tok_of_word Klog). Qed.
Lemma tk_mac : tok_of (K "mac") = TKey Kmac. Proof. exact (tok_of_word Kmac). Qed.
Lemma tk_mark : tok_of (K "mark") = TKey Kmark. Proof. exact (tok_of_word Kmark). Qed.
Lemma tk_method : tok_of (K "method") = TKey Kmethod. Proof. exact (tok_of_word Kmethod). Qed.
Lemma tk_mode : tok_of (K "mode") = TKey Kmode. Proof. exact (tok_of_word Kmode). Qed.
Lemma tk_mtu : tok_of (K "mtu") = TKey Kmtu. Proof. exact (tok_of_word Kmtu). Qed.
Lemma tk_multitap : tok_of (K "multitap") = TKey Kmultitap. Proof. exact (tok_of_word Kmultitap). Qed.
Lemma tk_no : tok_of (K "no") = TKey Kno. Proof. exact (tok_of_word Kno). Qed.
Lemma tk_offload : tok_of (K "offload") = TKey Koffload. Proof. exact (tok_of_word Koffload). Qed.
Lemma tk_on : tok_of (K "on") = TKey Kon. Proof. exact (tok_of_word Kon). Qed.
Lemma tk_packet : tok_of (K "packet") = TKey Kpacket. Proof. exact (tok_of_word Kpacket). Qed.
Lemma tk_peer : tok_of (K "peer") = TKey Kpeer. Proof. exact (tok_of_word Kpeer). Qed.
Lemma tk_peers : tok_of (K "peers") = TKey Kpeers. Proof. exact (tok_of_word Kpeers). Qed.
Lemma tk_persist : tok_of (K "persist") = TKey Kpersist. Proof. exact (tok_of_word Kpersist). Qed.
Lemma tk_pmtu : tok_of (K "pmtu") = TKey Kpmtu. Proof. exact (tok_of_word Kpmtu). Qed.
Lemma tk_port : tok_of (K "port") = TKey Kport. Proof. exact (tok_of_word Kport). Qed.
Lemma tk_post_down : tok_of (K "post-down") = TKey Kpost_down. Proof. exact (tok_of_word Kpost_down). Qed.
Lemma tk_pre_up : tok_of (K "pre-up") = TKey Kpre_up. Proof. exact (tok_of_word Kpre_up). Qed.
Lemma tk_protocol : tok_of (K "protocol") = TKey Kprotocol. Proof. exact (tok_of_word Kprotocol). Qed.
Lemma tk_remote : tok_of (K "remote") = TKey Kremote. Proof. exact (tok_of_word Kremote). Qed.
Lemma tk_secret : tok_of (K "secret") = TKey Ksecret. Proof. exact (tok_of_word Ksecret). Qed.
Lemma tk_secure : tok_of (K "secure") = TKey Ksecure. Proof. exact (tok_of_word Ksecure). Qed.
Lemma tk_socket : tok_of (K "socket") = TKey Ksocket. Proof. exact (tok_of_word Ksocket). Qed.
Lemma tk_status : tok_of (K "status") = TKey Kstatus. Proof. exact (tok_of_word Kstatus). Qed.
Lemma tk_stderr : tok_of (K "stderr") = TKey Kstderr. Proof. exact (tok_of_word Kstderr). Qed.
Lemma tk_sync : tok_of (K "sync") = TKey Ksync. Proof. exact (tok_of_word Ksync). Qed.
Lemma tk_syslog : tok_of (K "syslog") = TKey Ksyslog. Proof. exact (tok_of_word Ksyslog). Qed.
Lemma tk_tap : tok_of (K "tap") = TKey Ktap. Proof. exact (tok_of_word Ktap). Qed.
Lemma tk_to : tok_of (K "to") = TKey Kto. Proof. exact (tok_of_word Kto). Qed.
Lemma tk_tun : tok_of (K "tun") = TKey Ktun. Proof. exact (tok_of_word Ktun). Qed.
Lemma tk_up : tok_of (K "up") = TKey Kup. Proof. exact (tok_of_word Kup). Qed.
Lemma tk_use : tok_of (K "use") = TKey Kuse. Proof. exact (tok_of_word Kuse). Qed.
Lemma tk_user : tok_of (K "user") = TKey Kuser. Proof. exact (tok_of_word Kuser). Qed.
Lemma tk_verbose : tok_of (K "verbose") = TKey Kverbose. Proof. exact (tok_of_word Kverbose). Qed.
Lemma tk_verify : tok_of (K "verify") = TKey Kverify. Proof. exact (tok_of_word Kverify). Qed.
Lemma tk_warn : tok_of (K "warn") = TKey Kwarn. Proof. exact (tok_of_word Kwarn). Qed.
Lemma tk_yes : tok_of (K "yes") = TKey Kyes. Proof. exact (tok_of_word Kyes). Qed.
Global Hint Rewrite tk_addresses tk_any tk_as tk_async tk_auto tk_bind tk_capabilities tk_cipher tk_connect tk_debug tk_debug2 tk_default tk_disestablish tk_down tk_drop tk_early tk_error tk_establish tk_fatal tk_float tk_force tk_forward tk_from tk_group tk_handshakes tk_hide tk_include tk_info tk_interface tk_ip tk_ipv4 tk_ipv6 tk_key tk_l2tp tk_level tk_limit tk_log tk_mac tk_mark tk_method tk_mode tk_mtu tk_multitap tk_no tk_offload tk_on tk_packet tk_peer tk_peers tk_persist tk_pmtu tk_port tk_post_down tk_pre_up tk_protocol tk_remote tk_secret tk_secure tk_socket tk_status tk_stderr tk_sync tk_syslog tk_tap tk_to tk_tun tk_up tk_use tk_user tk_verbose tk_verify tk_warn tk_yes : tk.
