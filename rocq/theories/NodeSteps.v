(** Every function of the node model as a sequence of small steps.  This is a
    proof device: invariants are shown for the small steps only. *)
From Verif Require Import Base BufferModel NonceModel MethodModel HandshakeModel NodeModel.
From Coq Require Import Lia ZifyBool ZifyNat ZifyN.
Local Open Scope Z_scope.

(** ** Inversion of computations *)
Lemma bnd_ok : forall A B (m : M A) (f : A -> M B) n r, bnd m f n = Ok r ->
  exists a n1, m n = Ok (a, n1) /\ f a n1 = Ok r.
Proof.
  intros A B m f n r H. unfold bnd in H. destruct (m n) as [[a n1]| | |] eqn:E; try discriminate.
  exists a, n1. split; [reflexivity | exact H].
Qed.

Lemma ret_ok : forall A (a b : A) n n', ret a n = Ok (b, n') -> a = b /\ n' = n.
Proof. intros A a b n n' H. unfold ret in H. injection H as E1 E2. split; [exact E1 | symmetry; exact E2]. Qed.

Lemma gets_ok : forall A (f : node -> A) b n n', gets f n = Ok (b, n') -> b = f n /\ n' = n.
Proof. intros A f b n n' H. unfold gets in H. injection H as E1 E2. split; symmetry; assumption. Qed.

Lemma lift_ok : forall A (r : res A) b n n', lift r n = Ok (b, n') -> r = Ok b /\ n' = n.
Proof. intros A r b n n' H. unfold lift in H. destruct r; try discriminate. injection H as E1 E2. subst. split; reflexivity. Qed.

Lemma modn_ok : forall f x n n', modn f n = Ok (x, n') -> n' = f n.
Proof. intros f x n n' H. unfold modn in H. injection H as _ E. symmetry. exact E. Qed.

Lemma rd_ok : forall pid p n n', rd pid n = Ok (p, n') -> find_id (n_peers n) pid = Some p /\ n' = n.
Proof.
  intros pid p n n' H. unfold rd in H. destruct (find_id (n_peers n) pid) eqn:E; [|discriminate].
  injection H as E1 E2. subst. split; reflexivity.
Qed.

Lemma wr_ok : forall pid f x n n', wr pid f n = Ok (x, n') ->
  exists p, find_id (n_peers n) pid = Some p /\ n' = set_n_peers (upd_id (n_peers n) pid f) n.
Proof.
  intros pid f x n n' H. unfold wr in H. destruct (find_id (n_peers n) pid) as [p|] eqn:E; [|discriminate].
  injection H as _ E2. exists p. split; [reflexivity | symmetry; exact E2].
Qed.

Lemma emit_ok : forall o x n n', emit o n = Ok (x, n') -> n' = set_n_out ((n_now n, o) :: n_out n) n.
Proof. intros o x n n' H. exact (modn_ok _ _ _ _ H). Qed.

Lemma use_sock_ok : forall sk x n n', use_sock sk n = Ok (x, n') -> sock_alive (n_peers n) sk = true /\ n' = n.
Proof.
  intros sk x n n' H. unfold use_sock in H. apply bnd_ok in H. destruct H as (l & n1 & H1 & H2).
  apply gets_ok in H1. destruct H1 as [-> ->].
  destruct (sock_alive (n_peers n) sk); [|discriminate]. apply ret_ok in H2. destruct H2 as [_ ->]. split; reflexivity.
Qed.

(** One inversion *)
Ltac minv1 :=
  match goal with
  | H : bnd _ _ _ = Ok _ |- _ =>
      let a := fresh "a" in let n := fresh "m" in let H1 := fresh "S" in let H2 := fresh "S" in
      apply bnd_ok in H; destruct H as (a & n & H1 & H2); cbv beta in H2
  | H : ret _ _ = Ok (_, _) |- _ => apply ret_ok in H; destruct H as [? H]; subst
  | H : gets _ _ = Ok (_, _) |- _ => apply gets_ok in H; destruct H as [? H]; subst
  | H : lift _ _ = Ok (_, _) |- _ => let E := fresh "L" in apply lift_ok in H; destruct H as [E H]; subst
  | H : rd _ _ = Ok (_, _) |- _ => let E := fresh "F" in apply rd_ok in H; destruct H as [E H]; subst
  | H : use_sock _ _ = Ok (_, _) |- _ => let E := fresh "U" in apply use_sock_ok in H; destruct H as [E H]; subst
  | H : exit_bug _ = Ok _ |- _ => discriminate H
  | H : exit_fatal _ = Ok _ |- _ => discriminate H
  | H : undefined _ = Ok _ |- _ => discriminate H
  | H : when ?b _ _ = Ok _ |- _ => unfold when in H
  | H : (if ?b then _ else _) _ = Ok _ |- _ => let E := fresh "B" in destruct b eqn:E
  | H : (match ?x with _ => _ end) _ = Ok _ |- _ => let E := fresh "D" in destruct x eqn:E
  | H : (let x := _ in _) _ = Ok _ |- _ => cbv zeta in H
  end.
Ltac minv := repeat minv1.

Tactic Notation "bind" hyp(H) "as" ident(x) ident(m) ident(H1) :=
  apply bnd_ok in H; destruct H as (x & m & H1 & H); cbv beta in H.

(** ** Small steps *)

(** Which kinds of steps are included: [f_rl] changes of the configuration, [f_cl]
    giving an address to a peer, [f_rs] resetting, adding and deleting the given peer,
    [f_es] new sessions, [f_up] peers becoming established, [f_rp] responses, [f_lh] changes of
    the last response to configured peers *)
Record flags := mk_flags { f_rl : bool; f_cl : bool; f_rs : N -> bool; f_es : N -> bool; f_up : N -> bool; f_rx : N -> bool; f_tk : N -> bool;
  f_rp : N -> bool; f_lh : bool }.

(** what [schedule_peer_task] does *)
Definition sched (p : peer) : peer :=
  match omin (p_reset_to p) (omin (p_keep_to p) (p_next_hs p)) with
  | None => set_p_task None p
  | Some t => match p_task p with Some t' => if t <? t' then set_p_task (Some t) p else p | None => set_p_task (Some t) p end
  end.

Lemma sched_is : forall p, exists t, sched p = set_p_task t p.
Proof.
  intros p. unfold sched. destruct (omin _ _) as [t|]; [|exists None; reflexivity].
  destruct (p_task p) as [t'|] eqn:E; [|exists (Some t); reflexivity].
  destruct (t <? t'); [exists (Some t); reflexivity | exists (p_task p); destruct p; reflexivity].
Qed.
Ltac unsched := repeat match goal with
  | |- context [sched ?q] => let t := fresh "tk" in destruct (sched_is q) as [t ->]
  | H : context [sched ?q] |- _ => let t := fresh "tk" in let E := fresh in destruct (sched_is q) as [t E]; rewrite E in *; clear E
  end.

(** a packet for the peer was (or would have been) sent *)
Definition tx_out (pid : N) (o : out) : Prop :=
  match o with OData q _ _ _ => q = pid | OEncFail q => q = pid | OUp q => q = pid | _ => False end.
Definition sent_at (n : node) (pid : N) : Prop := exists o, In (n_now n, o) (n_out n) /\ tx_out pid o.

(** the peer an output is about *)
Definition out_pid (o : out) : option N :=
  match o with
  | OSession q _ _ _ _ _ _ _ _ _ _ | OSeen q | OUp q | ODown q | OData q _ _ _ | ODeliver q _ _ | OVerdict q _ _ _ => Some q
  | _ => None
  end.

(** the peer has an unexpired session with this number *)
Definition p_live (now : Z) (sid : N) (p : peer) : Prop :=
  exists s, (p_old p = Some s \/ p_sess p = Some s) /\ ss_id s = sid /\ match ss_state s with MCommon c => now < s_valid_till c | MNull c => n_valid c = true end.

Definition actp (p : peer) : Prop := p_state p <> Inactive.

(** Where a verification result may come from: a packet from the verified address, or
    a thread that was started for this peer and address *)
Definition verdict_of (ev : event) (n : node) (pid : N) (src : addr) (ok : bool) : Prop :=
  match ev with
  | EvRecv _ _ ra _ => src = ra
  | EvVerified _ ok' => ok = ok' /\ exists t, In (t, OVerifyStart pid src) (n_out n)
  | _ => False
  end.

(** What a node knows when it derives session keys in the event [ev] *)
Record evidence (P : params) (ev : event) (n : node) (p : peer) (method : bytes) (initiator compat : bool)
    (hk key sigma : bytes) (serial : N) (src : addr) : Prop := mk_evidence {
  ed_ev : exists sk laddr d pkt ctl h w mac tlv0,
    ev = EvRecv sk laddr src d /\ classify d = PHandshake pkt ctl /\ handshake_handle (c_hs P) pkt ctl = Ok (HProtocol h) /\
    view pkt h = Ok w /\ w_type w = (if initiator then 2 else 3)%N /\
    w_sender w = Some (p_key p) /\ w_recipient w = Some (c_own P) /\
    w_sender_hk w = Some hk /\ w_recipient_hk w = Some (c_eph P serial) /\
    w_mac w = Some (mac, tlv0) /\ c_mac P key tlv0 = mac /\ compat = compat_of (w_flags w) /\
    (match w_mtu w with Some m => m = peer_mtu P p | None => True end) /\
    (if initiator then get_method_by_name_list (c_methods P (p_group p)) (w_method_list w)
     else get_method_by_name (c_methods P (p_group p)) (w_method w)) = Some method;
  ed_shared : c_shared P initiator serial (p_key p) hk = Some (sigma, key);
  ed_valid : exists k, (k = n_cur n \/ k = n_prev n) /\ k_serial k = serial /\ n_now n < k_valid_till k;
  ed_fresh : n_now n < k_preferred_till (n_cur n);
  ed_serial : (p_serial p < serial)%N;
  ed_eh : p_eh_to p <= n_now n;
  ed_dyn : is_dynamic p = true -> n_now n < p_valid_to p;
  ed_addr : p_addr p = Some src;
  ed_en : is_enabled p = true
}.

Section Steps.
Variables (P : params) (ev : event) (fl : flags).

Definition pstatic (r : remote) := (r_host r, r_addr r).

(** Changes of one peer *)
Inductive pstep (n : node) (p : peer) : peer -> Prop :=
| ps_timer : forall nh nr lt la ifc,
    pstep n p (set_p_iface ifc (set_p_lh_addr la (set_p_lh_to lt (set_p_next_remote nr (set_p_next_hs nh p)))))
| ps_keep : (is_established p = true -> sent_at n (p_id p)) -> pstep n p (set_p_keep_to (Some (n_now n + KEEPALIVE_TIMEOUT)) p)
| ps_sched : actp p -> pstep n p (sched p)
| ps_untask : f_tk fl (p_id p) = true -> pstep n p (set_p_task None p)
| ps_remotes : forall l, map pstatic l = map pstatic (p_remotes p) -> pstep n p (set_p_remotes l p)
| ps_lhr : forall a, f_lh fl = true \/ is_dynamic p = true -> pstep n p (set_p_lhr_to (n_now n + MIN_HANDSHAKE_INTERVAL) (set_p_lhr_addr (Some a) p))
| ps_eh : pstep n p (set_p_eh_to (n_now n + MIN_HANDSHAKE_INTERVAL) p)
| ps_verifying : is_dynamic p = true -> pstep n p (set_p_reset_to (oadvance (p_reset_to p) (n_now n + MIN_VERIFY_INTERVAL)) (set_p_verify_to (n_now n + MIN_VERIFY_INTERVAL) p))
| ps_sock : forall s, match s with Some (SDyn o _) => o = p_id p | _ => True end -> s = None \/ actp p -> pstep n p (set_p_sock s p)
| ps_laddr : forall a, pstep n p (set_p_laddr (Some a) p)
| ps_addr_none : is_established p = false -> pstep n p (set_p_addr None p)
| ps_claim : forall a, f_cl fl = true -> actp p ->
    (forall q, In q (n_peers n) -> p_id q <> p_id p -> p_addr q <> Some a) ->
    pstep n p (set_p_addr (Some a) p)
| ps_state : forall s, is_established p = false -> s <> Established -> s <> Inactive -> is_enabled p = true -> pstep n p (set_p_state s p)
| ps_setup : forall l nr, p_state p = Inactive -> map pstatic l = map pstatic (p_remotes p) ->
    pstep n p
      (set_p_reset_to (if is_dynamic p then Some (n_now n) else None)
      (set_p_next_hs None (set_p_keep_to None
      (set_p_verify_to (n_now n) (set_p_valid_to (n_now n)
      (set_p_eh_to (n_now n)
      (set_p_lhr_to (n_now n) (set_p_lhr_addr None
      (set_p_lh_to (n_now n) (set_p_lh_addr None
      (set_p_next_remote nr (set_p_remotes l p))))))))))))
| ps_conf : forall c, f_rl fl = true -> p_conf p <> CDynamic -> c <> CDynamic -> pstep n p (set_p_conf c p)
| ps_flags : forall s, p_sess p = Some s -> pstep n p (set_p_sess (Some (set_ss_flags true true s)) p)
| ps_recv_old : forall s st auth nonce fresh, p_old p = Some s -> m_valid (n_now n) (ss_state s) = true ->
    m_decrypt (n_now n) (ss_state s) auth nonce = Ok (Some (st, fresh)) ->
    pstep n p (set_p_old (Some (set_ss_state st s)) p)
| ps_recv : forall s st auth nonce fresh, p_sess p = Some s -> m_valid (n_now n) (ss_state s) = true ->
    m_decrypt (n_now n) (ss_state s) auth nonce = Ok (Some (st, fresh)) ->
    pstep n p (set_p_old None (set_p_sess (Some (set_ss_state st s)) p))
| ps_cleaned : forall s, p_sess p = Some s ->
    pstep n p (set_p_next_hs None (set_p_sess (Some (set_ss_flags true (ss_refreshing s) s)) p))
| ps_cache : forall c : option hcache,
    match c with Some c => c_shared P false (hc_serial c) (p_key p) (hc_hk c) = Some (hc_sigma c, hc_key c) | None => True end ->
    pstep n p (set_p_cache c p)
| ps_serial : is_dynamic p = true -> p_state p = Inactive -> (forall t o, In (t, o) (n_out n) -> out_pid o <> Some (p_id p)) -> pstep n p (set_p_serial (p_serial p - 1)%N p).

(** outputs that are not tied to a change of a peer *)
Definition plain_out (n : node) (o : out) : Prop :=
  match o with
  | OResp pid a serial m => f_rp fl pid = true /\ exists p, find_id (n_peers n) pid = Some p /\
      (exists sigma, c_shared P false serial (p_key p) (g_hk m) = Some (sigma, g_salt m)) /\
      g_data m = wire_resp P p serial (g_hk m) (g_salt m) /\
      match ev with EvRecv _ _ ra _ => a = ra /\ p_eh_to p <= n_now n | EvVerified _ _ => is_dynamic p = true | _ => False end
  | OFin pid _ m => exists p conf serial sigma method sid src, find_id (n_peers n) pid = Some p /\
      In (n_now n, OSession pid (p_key p) conf true serial (g_hk m) (g_salt m) sigma method sid src) (n_out n) /\
      g_data m = wire_fin P p serial (g_hk m) (g_salt m) method
  | OInit _ _ | OErr _ | OEncFail _ | OVerifyStart _ _ | OResolve _ _ => True
  | _ => False
  end.

(** What [reset_peer] does to a peer and to the Ethernet addresses *)
Definition reset_fn (p : peer) : peer :=
  let p := set_p_old None (set_p_sess None p) in
  let p := set_p_task None p in
  let p := set_p_addr None (set_p_laddr None p) in
  let p := set_p_state Inactive p in
  if (negb (c_iface_persist P) || (match p_conf p with CDisabled => true | _ => false end) || is_dynamic p)%bool
  then set_p_iface false p else p.

(** One step of a node other than the creation of a session and the transition
    to the established state *)
Inductive nstep (n : node) : node -> Prop :=
| N_orc : forall l, nstep n (set_n_orc l n)
| N_floating : forall b, nstep n (set_n_floating b n)
| N_resolving : forall l,
    (forall x, In x l -> In x (n_resolving n) \/
       exists p, find_id (n_peers n) (fst x) = Some p /\ is_dynamic p = false /\ (snd x < length (p_remotes p))%nat) ->
    nstep n (set_n_resolving l n)
| N_verifying : forall l,
    (forall j, In j l -> In j (n_verifying n) \/ exists p, find_id (n_peers n) (v_peer j) = Some p /\ is_dynamic p = true /\
       In (n_now n, OVerifyStart (v_peer j) (v_raddr j)) (n_out n)) ->
    nstep n (set_n_verifying l n)
| N_next_sock : forall x, nstep n (set_n_next_sock x n)
| N_eth : forall l, (forall e, In e l -> In e (n_eth n) \/ e_peer e = None \/
      exists pid p, e_peer e = Some pid /\ find_id (n_peers n) pid = Some p /\ is_established p = true) ->
    nstep n (set_n_eth l n)
| N_out : forall o, plain_out n o -> nstep n (set_n_out ((n_now n, o) :: n_out n) n)
| N_deliver : forall pid p sid src, f_rx fl pid = true -> find_id (n_peers n) pid = Some p -> p_live (n_now n) sid p -> nstep n (set_n_out ((n_now n, ODeliver pid sid src) :: n_out n) n)
| N_seen : forall pid p, f_rx fl pid = true -> find_id (n_peers n) pid = Some p ->
    nstep n (set_n_peers (upd_id (n_peers n) pid (set_p_reset_to (Some (n_now n + PEER_STALE_TIME))))
              (set_n_out ((n_now n, OSeen pid) :: n_out n) n))
| N_maint : timed_out (n_now n) (k_preferred_till (n_cur n)) = true ->
    nstep n (set_n_cur (mk_hkey (k_serial (n_cur n) + 1)%N (n_now n + 15000) (n_now n + 30000)) (set_n_prev (n_cur n) n))
| N_peer : forall pid p f, find_id (n_peers n) pid = Some p -> pstep n p (f p) ->
    nstep n (set_n_peers (upd_id (n_peers n) pid f) n)
| N_verdict : forall pid p src (ok : bool), find_id (n_peers n) pid = Some p -> is_dynamic p = true -> verdict_of ev n pid src ok ->
    nstep n (set_n_peers (upd_id (n_peers n) pid (fun p =>
                 let t := n_now n + (if ok then VERIFY_VALID_TIME else 0) in
                 set_p_reset_to (oadvance (p_reset_to p) t) (set_p_valid_to t p)))
              (set_n_out ((n_now n, OVerdict pid (p_key p) src ok) :: n_out n) n))
| N_send : forall pid p s (old : bool) dst, find_id (n_peers n) pid = Some p -> p_addr p = Some dst ->
    (if old then p_old p else p_sess p) = Some s -> m_valid (n_now n) (ss_state s) = true ->
    nstep n (set_n_out ((n_now n, OData pid (ss_id s) (match ss_state s with MCommon c => Some (s_send c) | MNull _ => None end) dst) :: n_out n)
      (set_n_peers (upd_id (n_peers n) pid
         (let st := match ss_state s with MCommon c => MCommon (set_send c (increment_nonce (s_send c))) | MNull c => MNull c end in
          if old then set_p_old (Some (set_ss_state st s)) else set_p_sess (Some (set_ss_state st s)))) n))
| N_reset : forall pid p f, find_id (n_peers n) pid = Some p -> f p = reset_fn (set_p_sock None p) -> f_rs fl pid = true ->
    nstep n
      (set_n_peers (upd_id (n_peers n) pid f)
      (set_n_eth (filter (fun e => negb (match e_peer e with Some q => N.eqb q pid | None => false end)) (n_eth n))
      (if is_established p then set_n_out ((n_now n, ODown pid) :: n_out n) n else n)))
| N_delete : forall pid p, find_id (n_peers n) pid = Some p -> p_state p = Inactive -> p_addr p = None -> p_sock p = None -> f_rs fl pid = true ->
    f_rl fl = true \/ is_dynamic p = true ->
    nstep n (set_n_peers (filter (fun p => negb (N.eqb (p_id p) pid)) (n_peers n)) n)
| N_insert : forall c st, find_peer_key (n_peers n) (pc_key c) = None -> (f_rl fl = true /\ st = CNew) \/ (st = CDynamic /\ c = dyn_conf P (pc_key c)) -> f_rs fl (n_next_id n) = true ->
    nstep n (set_n_next_id (n_next_id n + 1)%N
                 (set_n_peers (n_peers n ++ [new_peer (n_next_id n) c st (k_serial (n_cur n))]) n))
| N_pre_reload : f_rl fl = true -> nstep n (set_n_peers (map pre_reload (n_peers n)) n)
| N_session : forall pid p method initiator compat hk key sigma serial src rnd, f_es fl pid = true ->
    find_id (n_peers n) pid = Some p -> actp p -> 0 <= rnd < KEY_REFRESH_SPLAY ->
    evidence P ev n p method initiator compat hk key sigma serial src ->
    nstep n
      (let sid := n_next_sid n in
       let st := if c_null P method then MNull {| n_initiator := initiator; n_compat := compat; n_valid := true |}
                 else MCommon (common_init (n_now n) initiator compat rnd) in
       set_n_out ((n_now n, OSession pid (p_key p) (p_conf p) initiator serial hk key sigma method sid src) :: n_out n)
         (set_n_peers (upd_id (n_peers n) pid (fun p => set_p_serial serial (set_p_sess (Some (mk_psess sid false false method st)) (superseded (n_now n) method p))))
            (set_n_next_sid (sid + 1)%N n)))
| N_up : forall pid p, f_up fl pid = true ->
    find_id (n_peers n) pid = Some p -> actp p -> is_established p = false -> is_enabled p = true ->
    may_connect P (n_peers n) p = true -> p_sess p <> None -> p_addr p <> None ->
    nstep n
      (set_n_out ((n_now n, OUp pid) :: n_out n)
         (set_n_peers (upd_id (n_peers n) pid (fun p =>
            sched (set_p_keep_to (Some (n_now n + KEEPALIVE_TIMEOUT)) (set_p_reset_to (Some (n_now n + PEER_STALE_TIME)) (set_p_state Established p))))) n)).

Inductive steps : node -> node -> Prop :=
| steps_refl : forall n, steps n n
| steps_step : forall n n1 n2, nstep n n1 -> steps n1 n2 -> steps n n2.

Lemma steps_one : forall n n', nstep n n' -> steps n n'.
Proof. intros n n' H. apply steps_step with n'; [exact H | apply steps_refl]. Qed.

Lemma steps_trans : forall n n1 n2, steps n n1 -> steps n1 n2 -> steps n n2.
Proof.
  intros n n1 n2 H. induction H as [|n n3 n4 Hs _ IH]; intros H2; [exact H2|].
  apply steps_step with n3; [exact Hs | exact (IH H2)].
Qed.

Lemma wr_steps : forall pid f x n n', wr pid f n = Ok (x, n') ->
  (forall p, find_id (n_peers n) pid = Some p -> pstep n p (f p)) -> steps n n'.
Proof.
  intros pid f x n n' H Hp. apply wr_ok in H. destruct H as (p & Hf & ->).
  apply steps_one. apply N_peer with p; [exact Hf | exact (Hp p Hf)].
Qed.

Lemma emit_steps : forall o x n n', emit o n = Ok (x, n') -> plain_out n o -> steps n n'.
Proof. intros o x n n' H Ho. apply emit_ok in H. subst. apply steps_one. apply N_out. exact Ho. Qed.

Create HintDb nsteps.

(** for every computation found in the context, the steps it makes *)
Ltac conv :=
  repeat match goal with
  | H : _ ?n = Ok (_, ?n') |- _ =>
      lazymatch goal with
      | _ : steps n n' |- _ => fail
      | _ => let S := fresh "St" in assert (S : steps n n') by (eauto 3 with nsteps)
      end
  end.
Ltac chain :=
  repeat match goal with
  | |- steps ?n ?n => apply steps_refl
  | H : steps ?n _ |- steps ?n _ => apply (steps_trans _ _ _ H); clear H
  end.
Ltac fin := conv; chain.

Lemma pop_steps : forall x n n', pop n = Ok (x, n') -> steps n n'.
Proof.
  intros x n n' H. unfold pop in H. destruct (n_orc n) as [|y r]; injection H as _ E; subst.
  - apply steps_refl.
  - apply steps_one. apply N_orc.
Qed.
#[local] Hint Resolve pop_steps : nsteps.

(** environment decisions change nothing else *)
Lemma pop_same : forall x n n', pop n = Ok (x, n') -> exists l, n' = set_n_orc l n.
Proof.
  intros x n n' H. unfold pop in H. destruct (n_orc n) as [|y r] eqn:E; injection H as _ E2; subst.
  - exists []. destruct n'. cbn in E. subst. reflexivity.
  - exists r. reflexivity.
Qed.
Lemma pop_peers : forall x n n', pop n = Ok (x, n') -> n_peers n' = n_peers n.
Proof. intros x n n' H. apply pop_same in H. destruct H as [l ->]. reflexivity. Qed.
Lemma pop_now : forall x n n', pop n = Ok (x, n') -> n_now n' = n_now n.
Proof. intros x n n' H. apply pop_same in H. destruct H as [l ->]. reflexivity. Qed.
Lemma flip_same : forall x n n', flip n = Ok (x, n') -> exists l, n' = set_n_orc l n.
Proof. intros x n n' H. unfold flip in H. minv. eapply pop_same. eassumption. Qed.
Lemma rand_same : forall lo hi x n n', rand lo hi n = Ok (x, n') -> exists l, n' = set_n_orc l n.
Proof. intros lo hi x n n' H. unfold rand in H. minv. eapply pop_same. eassumption. Qed.

Lemma same_steps : forall n n', (exists l, n' = set_n_orc l n) -> steps n n'.
Proof. intros n n' [l ->]. apply steps_one. apply N_orc. Qed.
Lemma flip_steps : forall x n n', flip n = Ok (x, n') -> steps n n'.
Proof. intros x n n' H. apply same_steps. eapply flip_same. exact H. Qed.
Lemma rand_steps : forall lo hi x n n', rand lo hi n = Ok (x, n') -> steps n n'.
Proof. intros lo hi x n n' H. apply same_steps. eapply rand_same. exact H. Qed.
#[local] Hint Resolve flip_steps rand_steps : nsteps.

Lemma default_rand_same : forall x n n', handshake_default_rand n = Ok (x, n') -> exists l, n' = set_n_orc l n.
Proof. intros x n n' H. exact (rand_same _ _ _ _ _ H). Qed.
Lemma default_rand_steps : forall x n n', handshake_default_rand n = Ok (x, n') -> steps n n'.
Proof. intros x n n' H. exact (rand_steps _ _ _ _ _ H). Qed.
#[local] Hint Resolve default_rand_steps : nsteps.

(** ** Lists of peers *)
Definition keeps_id (f : peer -> peer) : Prop := forall p, p_id (f p) = p_id p.

Lemma find_id_upd : forall l pid f q, keeps_id f ->
  find_id (upd_id l pid f) q = if N.eqb q pid then option_map f (find_id l pid) else find_id l q.
Proof.
  intros l pid f q Hf. induction l as [|p l IH].
  - cbn. destruct (N.eqb q pid); reflexivity.
  - cbn [upd_id map find_id find] in *. unfold upd_id, find_id in *.
    destruct (N.eqb_spec (p_id p) pid) as [E|E].
    + rewrite Hf. destruct (N.eqb_spec q pid) as [E2|E2].
      * subst q. rewrite E, N.eqb_refl. reflexivity.
      * rewrite E. destruct (N.eqb_spec pid q) as [E3|E3]; [congruence|]. rewrite IH. reflexivity.
    + destruct (N.eqb_spec q pid) as [E2|E2].
      * subst q. destruct (N.eqb_spec (p_id p) pid) as [E3|E3]; [congruence|]. exact IH.
      * destruct (N.eqb (p_id p) q); [reflexivity|]. exact IH.
Qed.

Lemma find_id_upd_same : forall l pid f p, keeps_id f -> find_id l pid = Some p -> find_id (upd_id l pid f) pid = Some (f p).
Proof. intros l pid f p Hf H. rewrite find_id_upd by exact Hf. rewrite N.eqb_refl, H. reflexivity. Qed.

Lemma find_id_in : forall l pid p, find_id l pid = Some p -> In p l /\ p_id p = pid.
Proof.
  intros l pid p H. unfold find_id in H. apply find_some in H. destruct H as [H1 H2].
  apply N.eqb_eq in H2. split; assumption.
Qed.

Lemma upd_upd : forall l pid f g, keeps_id f -> upd_id (upd_id l pid f) pid g = upd_id l pid (fun p => g (f p)).
Proof.
  intros l pid f g Hf. unfold upd_id. rewrite map_map. apply map_ext. intros p.
  destruct (N.eqb_spec (p_id p) pid) as [E|E].
  - rewrite Hf. destruct (N.eqb_spec (p_id p) pid); [reflexivity | congruence].
  - destruct (N.eqb_spec (p_id p) pid); [congruence | reflexivity].
Qed.

(** The peer keeps its state and its configuration state *)
Definition trk (pid : N) (n n' : node) : Prop :=
  forall p', find_id (n_peers n') pid = Some p' ->
  exists p, find_id (n_peers n) pid = Some p /\ p_state p' = p_state p /\ p_conf p' = p_conf p.

Lemma trk_refl : forall pid n, trk pid n n.
Proof. intros pid n p H. exists p. split; [exact H|]. split; reflexivity. Qed.
Lemma trk_trans : forall pid n n1 n2, trk pid n n1 -> trk pid n1 n2 -> trk pid n n2.
Proof.
  intros pid n n1 n2 H1 H2 p Hp. destruct (H2 p Hp) as (p1 & Hp1 & E1 & E2). destruct (H1 p1 Hp1) as (p0 & Hp0 & E3 & E4).
  exists p0. split; [exact Hp0|]. split; congruence.
Qed.
Lemma trk_peers : forall pid n n', n_peers n' = n_peers n -> trk pid n n'.
Proof. intros pid n n' E p H. rewrite E in H. exact (trk_refl pid n p H). Qed.
Lemma trk_orc : forall pid n n', (exists l, n' = set_n_orc l n) -> trk pid n n'.
Proof. intros pid n n' [l ->]. apply trk_peers. reflexivity. Qed.
Lemma trk_wr : forall pid f x n n', wr pid f n = Ok (x, n') -> keeps_id f ->
  (forall p, p_state (f p) = p_state p /\ p_conf (f p) = p_conf p) -> trk pid n n'.
Proof.
  intros pid f x n n' H Hk Hs p Hp. apply wr_ok in H. destruct H as (p0 & Hf & ->). cbn [n_peers set_n_peers] in Hp.
  rewrite (find_id_upd_same _ _ _ _ Hk Hf) in Hp. injection Hp as E. subst p. exists p0.
  split; [exact Hf|]. apply Hs.
Qed.

Definition off (pid : N) (n : node) : Prop :=
  forall p, find_id (n_peers n) pid = Some p -> is_established p = false /\ is_enabled p = true.
Lemma off_trk : forall pid n n', off pid n -> trk pid n n' -> off pid n'.
Proof.
  intros pid n n' H Ht p Hp. destruct (Ht p Hp) as (p0 & Hp0 & E1 & E2). specialize (H p0 Hp0).
  unfold is_established, is_enabled in *. rewrite E1, E2. exact H.
Qed.

Definition act (pid : N) (n : node) : Prop := forall p, find_id (n_peers n) pid = Some p -> actp p.
Lemma act_trk : forall pid n n', act pid n -> trk pid n n' -> act pid n'.
Proof. intros pid n n' H Ht p Hp. destruct (Ht p Hp) as (p0 & Hp0 & E1 & _). unfold actp in *. rewrite E1. exact (H p0 Hp0). Qed.
Lemma trk_wr_other : forall pid q f x n n', wr q f n = Ok (x, n') -> keeps_id f ->
  (forall p, p_state (f p) = p_state p /\ p_conf (f p) = p_conf p) -> trk pid n n'.
Proof.
  intros pid q f x n n' H Hk Hs p Hp. apply wr_ok in H. destruct H as (p0 & Hf & ->). cbn [n_peers set_n_peers] in Hp.
  rewrite find_id_upd in Hp by exact Hk. destruct (N.eqb_spec pid q) as [E|E].
  - subst q. rewrite Hf in Hp. injection Hp as <-. exists p0. split; [exact Hf | apply Hs].
  - exists p. split; [exact Hp | split; reflexivity].
Qed.

(** ** Timers *)
Lemma ps_timer' : forall n p p',
  (exists nh nr lt la ifc, p' = set_p_iface ifc (set_p_lh_addr la (set_p_lh_to lt (set_p_next_remote nr (set_p_next_hs nh p))))) ->
  pstep n p p'.
Proof. intros n p p' (nh & nr & lt & la & ifc & ->). apply ps_timer. Qed.
Lemma ps_same : forall n p, pstep n p p.
Proof.
  intros n p. apply ps_timer'. exists (p_next_hs p), (p_next_remote p), (p_lh_to p), (p_lh_addr p), (p_iface p). destruct p; reflexivity.
Qed.
Ltac timer := first [ apply ps_same | apply ps_timer'; do 5 eexists; reflexivity ].

Lemma schedule_peer_task_steps : forall pid x n n', schedule_peer_task pid n = Ok (x, n') -> act pid n -> steps n n'.
Proof.
  intros pid x n n' H Ha. unfold schedule_peer_task in H.
  eapply wr_steps; [exact H|]. intros p Hp. exact (ps_sched n p (Ha p Hp)).
Qed.
#[local] Hint Resolve schedule_peer_task_steps : nsteps.
Lemma schedule_peer_task_trk : forall q pid x n n', schedule_peer_task q n = Ok (x, n') -> trk pid n n'.
Proof.
  intros q pid x n n' H. eapply trk_wr_other; [exact H| |].
  - intros p. cbv beta. destruct (omin _ _); [|reflexivity]. destruct (p_task p); [|reflexivity]. destruct (_ <? _); reflexivity.
  - intros p. cbv beta. destruct (omin _ _); [|split; reflexivity]. destruct (p_task p); [|split; reflexivity]. destruct (_ <? _); split; reflexivity.
Qed.

Lemma set_next_handshake_steps : forall pid d x n n', set_next_handshake pid d n = Ok (x, n') -> steps n n'.
Proof.
  intros pid d x n n' H. unfold set_next_handshake in H. minv.
  eapply wr_steps; [eassumption|]. intros p Hp. timer.
Qed.
#[local] Hint Resolve set_next_handshake_steps : nsteps.
Lemma set_next_handshake_trk : forall q pid d x n n', set_next_handshake q d n = Ok (x, n') -> trk pid n n'.
Proof.
  intros q pid d x n n' H. unfold set_next_handshake in H. minv.
  eapply trk_wr_other; [eassumption| |]; intros p; [reflexivity | split; reflexivity].
Qed.

Lemma schedule_handshake_steps : forall pid d x n n', schedule_handshake pid d n = Ok (x, n') -> act pid n -> steps n n'.
Proof.
  intros pid d x n n' H Ha. unfold schedule_handshake in H. minv.
  match goal with H : set_next_handshake _ _ _ = Ok (_, ?m) |- _ =>
    assert (act pid m) by (eapply act_trk; [exact Ha | eapply set_next_handshake_trk; exact H]) end.
  fin.
Qed.
#[local] Hint Resolve schedule_handshake_steps : nsteps.
Lemma schedule_handshake_trk : forall q pid d x n n', schedule_handshake q d n = Ok (x, n') -> trk pid n n'.
Proof.
  intros q pid d x n n' H. unfold schedule_handshake in H. minv.
  eapply trk_trans; [eapply set_next_handshake_trk | eapply schedule_peer_task_trk]; eassumption.
Qed.

Lemma schedule_handshake_default_steps : forall pid x n n', schedule_handshake_default pid n = Ok (x, n') -> act pid n -> steps n n'.
Proof.
  intros pid x n n' H Ha. unfold schedule_handshake_default in H. minv.
  match goal with H : handshake_default_rand _ = Ok (_, ?m) |- _ =>
    assert (act pid m) by (eapply act_trk; [exact Ha | apply trk_orc; eapply default_rand_same; exact H]) end.
  fin.
Qed.
#[local] Hint Resolve schedule_handshake_default_steps : nsteps.
Lemma schedule_handshake_default_trk : forall q pid x n n', schedule_handshake_default q n = Ok (x, n') -> trk pid n n'.
Proof.
  intros q pid x n n' H. unfold schedule_handshake_default in H. minv.
  eapply trk_trans; [apply trk_orc; eapply default_rand_same; eassumption | eapply schedule_handshake_trk; eassumption].
Qed.

Lemma clear_keepalive_steps : forall pid x n n', clear_keepalive pid n = Ok (x, n') ->
  (forall p, find_id (n_peers n) pid = Some p -> is_established p = true -> sent_at n pid) -> steps n n'.
Proof.
  intros pid x n n' H Hs. unfold clear_keepalive in H. bind H as now m H1. apply gets_ok in H1. destruct H1 as [-> ->].
  eapply wr_steps; [exact H|]. intros p Hp. apply ps_keep. intros He. apply find_id_in in Hp as Hi. rewrite (proj2 Hi). exact (Hs p Hp He).
Qed.

(** ** Sending *)
(** after the packet itself was sent *)
Definition send_retry (pid : option N) : M unit :=
  retry <- flip ;;
  match pid with
  | Some pid =>
      when retry (p <- rd pid ;;
                  match p_next_hs p with
                  | None => schedule_handshake_default pid
                  | Some _ => ret tt
                  end)
  | None => ret tt
  end.

Definition oact (o : option N) (n : node) : Prop := match o with Some pid => act pid n | None => True end.
Lemma send_retry_steps : forall pid x n n', send_retry pid n = Ok (x, n') -> oact pid n -> steps n n'.
Proof.
  intros pid x n n' H Ha. unfold send_retry in H. bind H as retry m H1.
  assert (Ha' : oact pid m) by (destruct pid as [pid|]; [|exact I]; eapply act_trk; [exact Ha | apply trk_orc; eapply flip_same; exact H1]).
  destruct pid as [pid|]; cbn [oact] in *; minv; fin.
Qed.
#[local] Hint Resolve send_retry_steps : nsteps.
Lemma send_retry_trk : forall q pid x n n', send_retry pid n = Ok (x, n') -> trk q n n'.
Proof.
  intros q pid x n n' H. unfold send_retry in H. bind H as retry m H1. apply flip_same in H1. apply (trk_orc q) in H1.
  apply (trk_trans _ _ _ _ H1). destruct pid as [pid|]; minv; try apply trk_refl. eapply schedule_handshake_default_trk; eassumption.
Qed.

Lemma send_packet_ok : forall sk dst pid o x n n', send_packet sk dst pid o n = Ok (x, n') ->
  exists s a, sk = Some s /\ dst = Some a /\ sock_alive (n_peers n) s = true /\
    send_retry pid (set_n_out ((n_now n, o a) :: n_out n) n) = Ok (x, n').
Proof.
  intros sk dst pid o x n n' H. unfold send_packet in H.
  destruct sk as [s|]; [|discriminate]. destruct dst as [a|]; [|discriminate].
  apply bnd_ok in H. destruct H as (u & n1 & H1 & H2). apply use_sock_ok in H1. destruct H1 as [Ha ->].
  apply bnd_ok in H2. destruct H2 as (u2 & n2 & H1 & H2). apply emit_ok in H1. subst n2.
  exists s, a. split; [reflexivity|]. split; [reflexivity|]. split; [exact Ha|]. exact H2.
Qed.

Lemma send_packet_steps : forall sk dst pid o x n n', send_packet sk dst pid o n = Ok (x, n') ->
  oact pid n -> (forall a, dst = Some a -> plain_out n (o a)) -> steps n n'.
Proof.
  intros sk dst pid o x n n' H Ha Ho. apply send_packet_ok in H. destruct H as (s & a & -> & -> & _ & H).
  eapply steps_step; [apply N_out; apply (Ho a eq_refl)|]. eapply send_retry_steps; [exact H|].
  destruct pid as [pid|]; [|exact I]. exact Ha.
Qed.
Lemma send_packet_trk : forall q sk dst pid o x n n', send_packet sk dst pid o n = Ok (x, n') -> trk q n n'.
Proof.
  intros q sk dst pid o x n n' H. apply send_packet_ok in H. destruct H as (s & a & -> & -> & _ & H).
  apply send_retry_trk with (q := q) in H. intros p Hp. exact (H p Hp).
Qed.

Lemma maintenance_trk : forall q x n n', maintenance n = Ok (x, n') -> trk q n n'.
Proof.
  intros q x n n' H. unfold maintenance in H. apply modn_ok in H. apply trk_peers. rewrite H.
  destruct (timed_out _ _); reflexivity.
Qed.

Lemma maintenance_steps : forall x n n', maintenance n = Ok (x, n') -> steps n n'.
Proof.
  intros x n n' H. unfold maintenance in H. apply modn_ok in H. subst.
  destruct (timed_out (n_now n) (k_preferred_till (n_cur n))) eqn:E; [|apply steps_refl].
  apply steps_one. apply N_maint. exact E.
Qed.
#[local] Hint Resolve maintenance_steps : nsteps.

Lemma handshake_init_steps : forall sk dst pid x n n', handshake_init sk dst pid n = Ok (x, n') -> oact pid n -> steps n n'.
Proof.
  intros sk dst pid x n n' H Ha. unfold handshake_init in H. bind H as u m H1.
  assert (Ha' : oact pid m) by (destruct pid as [pid|]; [|exact I]; eapply act_trk; [exact Ha | eapply maintenance_trk; exact H1]).
  apply send_packet_steps in H; [|exact Ha' | intros ? _; exact I]. fin.
Qed.
#[local] Hint Resolve handshake_init_steps : nsteps.

(** ** Sockets *)
Lemma free_socket_ok : forall pid x n n', free_socket pid n = Ok (x, n') ->
  exists p, find_id (n_peers n) pid = Some p /\
    ((p_sock p = None /\ n' = n) \/ n' = set_n_peers (upd_id (n_peers n) pid (set_p_sock None)) n).
Proof.
  intros pid x n n' H. unfold free_socket in H. minv.
  - apply wr_ok in S0. destruct S0 as (p & _ & ->). exists a. split; [exact F|]. right. reflexivity.
  - apply wr_ok in S0. destruct S0 as (p & _ & ->). exists a. split; [exact F|]. right. reflexivity.
  - exists a. split; [exact F|]. left. split; [exact D | reflexivity].
Qed.

Lemma free_socket_steps : forall pid x n n', free_socket pid n = Ok (x, n') -> steps n n'.
Proof.
  intros pid x n n' H. apply free_socket_ok in H. destruct H as (p & Hf & [[_ ->] | ->]); [apply steps_refl|].
  apply steps_one. apply N_peer with p; [exact Hf|]. apply ps_sock; [exact I | left; reflexivity].
Qed.
Lemma free_socket_trk : forall q pid x n n', free_socket pid n = Ok (x, n') -> trk q n n'.
Proof.
  intros q pid x n n' H. unfold free_socket in H. minv; try apply trk_refl;
    (eapply trk_wr_other; [eassumption| |]; intros p; [reflexivity | split; reflexivity]).
Qed.
#[local] Hint Resolve free_socket_steps : nsteps.

(** the steps of a write, of a change of the node *)
Ltac wrs tac :=
  match goal with H : wr _ _ ?n = Ok (_, ?n') |- _ =>
    lazymatch goal with
    | _ : steps n n' |- _ => fail
    | _ => let S := fresh "St" in let p := fresh "p" in let Hp := fresh "Hp" in
           assert (S : steps n n') by (eapply wr_steps; [exact H | intros p Hp; cbv beta; tac p Hp])
    end
  end.
Ltac mods tac :=
  match goal with H : modn _ ?n = Ok (_, ?n') |- _ =>
    lazymatch goal with
    | _ : steps n n' |- _ => fail
    | _ => let S := fresh "St" in
           assert (S : steps n n') by (apply modn_ok in H; rewrite H; tac)
    end
  end.
Ltac emits :=
  match goal with H : emit _ ?n = Ok (_, ?n') |- _ =>
    lazymatch goal with
    | _ : steps n n' |- _ => fail
    | _ => let S := fresh "St" in
           assert (S : steps n n') by (eapply emit_steps; [exact H | exact I])
    end
  end.

Lemma reset_socket_steps : forall pid x n n', reset_socket pid n = Ok (x, n') -> act pid n -> steps n n'.
Proof.
  intros pid x n n' H Ha. unfold reset_socket in H.
  bind H as p m H1. apply rd_ok in H1. destruct H1 as [Hf ->]. destruct (p_addr p); [|fin].
  destruct (negb (is_sock_dynamic p)); [apply ret_ok in H; destruct H as [_ ->]; apply steps_refl|].
  bind H as u m1 H1. pose proof (free_socket_trk pid _ _ _ _ H1) as T1.
  bind H as d m2 H2. pose proof (trk_orc pid _ _ (flip_same _ _ _ H2)) as T2.
  bind H as y m3 H3. pose proof (trk_orc pid _ _ (pop_same _ _ _ H3)) as T3.
  assert (Ha3 : act pid m3) by (eapply act_trk; [exact Ha|]; eapply trk_trans; [exact T1|]; eapply trk_trans; eassumption).
  destruct d.
  - wrs ltac:(fun p Hp => apply ps_sock; [exact I | right; exact (Ha3 p Hp)]). fin.
  - destruct (N.eqb y 0); [minv; fin|]. minv.
    match goal with H : modn _ ?m = Ok (_, ?m') |- _ =>
      pose proof (trk_peers pid m m' ltac:(apply modn_ok in H; rewrite H; reflexivity)) as T4 end.
    assert (Ha4 := act_trk _ _ _ Ha3 T4).
    mods ltac:(apply steps_one; apply N_next_sock).
    wrs ltac:(fun p Hp => apply ps_sock; [apply find_id_in in Hp; symmetry; exact (proj2 Hp) | right; exact (Ha4 p Hp)]).
    fin.
Qed.
#[local] Hint Resolve reset_socket_steps : nsteps.

(** ** Resetting and setting up *)
Lemma reset_peer_ok : forall pid x n n', reset_peer P pid n = Ok (x, n') ->
  exists p f, find_id (n_peers n) pid = Some p /\ f p = reset_fn (set_p_sock None p) /\ keeps_id f /\
    n' = set_n_peers (upd_id (n_peers n) pid f)
      (set_n_eth (filter (fun e => negb (match e_peer e with Some q => N.eqb q pid | None => false end)) (n_eth n))
      (if is_established p then set_n_out ((n_now n, ODown pid) :: n_out n) n else n)).
Proof.
  intros pid x n n' H. unfold reset_peer in H.
  apply bnd_ok in H. destruct H as (p & n1 & H1 & H). apply rd_ok in H1. destruct H1 as [Hf ->].
  apply bnd_ok in H. destruct H as (u & n1 & H1 & H).
  apply bnd_ok in H. destruct H as (u2 & n2 & H2 & H).
  apply bnd_ok in H. destruct H as (u3 & n3 & H3 & H).
  assert (E1 : n1 = if is_established p then set_n_out ((n_now n, ODown pid) :: n_out n) n else n).
  { unfold when in H1. destruct (is_established p).
    - apply emit_ok in H1. exact H1.
    - apply ret_ok in H1. exact (proj2 H1). }
  assert (Ep : n_peers n1 = n_peers n) by (rewrite E1; destruct (is_established p); reflexivity).
  assert (Ee : n_eth n1 = n_eth n) by (rewrite E1; destruct (is_established p); reflexivity).
  apply modn_ok in H3. apply wr_ok in H. destruct H as (p4 & Hf4 & H).
  apply free_socket_ok in H2. destruct H2 as (p2 & Hf2 & H2). rewrite Ep in Hf2. rewrite Hf in Hf2. injection Hf2 as E2. subst p2.
  exists p.
  destruct H2 as [[Hs H2] | H2].
  - exists (reset_fn). split; [exact Hf|]. split.
    + destruct p. cbn in Hs. subst. reflexivity.
    + split.
      * intros q. unfold reset_fn. cbv zeta. destruct (_ || _ || _)%bool; reflexivity.
      * subst n3 n2. rewrite H. cbn. rewrite Ep, Ee, E1. reflexivity.
  - exists (fun p => reset_fn (set_p_sock None p)). split; [exact Hf|]. split; [reflexivity|]. split.
    + intros q. unfold reset_fn. cbv zeta. destruct (_ || _ || _)%bool; reflexivity.
    + subst n3 n2. rewrite H. cbn [n_peers set_n_eth set_n_peers n_eth]. rewrite upd_upd by (intros q; reflexivity).
      rewrite Ep, Ee, E1. reflexivity.
Qed.

Lemma reset_peer_steps : forall pid x n n', reset_peer P pid n = Ok (x, n') -> f_rs fl pid = true -> steps n n'.
Proof.
  intros pid x n n' H Hrs. apply reset_peer_ok in H. destruct H as (p & f & Hf & Ef & _ & ->).
  apply steps_one. apply N_reset; assumption.
Qed.
#[local] Hint Resolve reset_peer_steps : nsteps.

(** a peer after [reset_peer] *)
Lemma reset_fn_fields : forall p, let q := reset_fn p in
  p_id q = p_id p /\ p_key q = p_key p /\ p_group q = p_group p /\ p_dir q = p_dir p /\ p_remotes q = p_remotes p /\
  p_floating q = p_floating p /\ p_conf q = p_conf p /\ p_sock q = p_sock p /\ p_laddr q = None /\ p_addr q = None /\
  p_state q = Inactive /\ p_task q = None /\ p_old q = None /\ p_sess q = None /\ p_serial q = p_serial p /\ p_cache q = p_cache p.
Proof.
  intros p q. subst q. unfold reset_fn. cbv zeta.
  destruct (_ || _ || _)%bool; cbn; repeat split.
Qed.

Lemma reset_peer_after : forall pid x n n', reset_peer P pid n = Ok (x, n') ->
  exists p, find_id (n_peers n) pid = Some p /\ find_id (n_peers n') pid = Some (reset_fn (set_p_sock None p)).
Proof.
  intros pid x n n' H. apply reset_peer_ok in H. destruct H as (p & f & Hf & Ef & Hk & ->).
  exists p. split; [exact Hf|]. cbn [n_peers set_n_peers]. rewrite (find_id_upd_same _ _ _ _ Hk Hf). rewrite Ef. reflexivity.
Qed.

Lemma state_steps : forall pid s x n n', wr pid (set_p_state s) n = Ok (x, n') -> off pid n ->
  s <> Established -> s <> Inactive -> steps n n'.
Proof.
  intros pid s x n n' H Ho Hs Hi. eapply wr_steps; [exact H|]. intros p Hp. destruct (Ho p Hp).
  apply ps_state; assumption.
Qed.

Lemma state_act : forall pid s x n n', wr pid (set_p_state s) n = Ok (x, n') -> s <> Inactive -> act pid n'.
Proof.
  intros pid s x n n' H Hs p Hp. apply wr_ok in H. destruct H as (p0 & Hf & ->). cbn [n_peers set_n_peers] in Hp.
  erewrite find_id_upd_same in Hp; [|intros q; reflexivity | exact Hf]. injection Hp as <-. exact Hs.
Qed.

Lemma init_handshake_steps : forall pid x n n', init_handshake P pid n = Ok (x, n') -> off pid n -> steps n n' /\ act pid n'.
Proof.
  intros pid x n n' H Ho. unfold init_handshake in H.
  bind H as p m H1. apply rd_ok in H1. destruct H1 as [Hf ->].
  bind H as d m1 H1.
  assert (T1 : trk pid n m1 /\ steps n m1).
  { destruct (has_limits P p).
    - split; [apply trk_orc; eapply rand_same; exact H1 | eapply rand_steps; exact H1].
    - apply ret_ok in H1. destruct H1 as [_ ->]. split; [apply trk_refl | apply steps_refl]. }
  destruct T1 as [T1 S1].
  bind H as u m2 H2. pose proof (state_act _ _ _ _ _ H2 ltac:(discriminate)) as A2.
  apply state_steps in H2; [|eapply off_trk; eassumption|discriminate|discriminate].
  split; [fin|]. eapply act_trk; [exact A2 | eapply schedule_handshake_trk; exact H].
Qed.

Lemma set_remote_static : forall i f p, (forall r, pstatic (f r) = pstatic r) ->
  map pstatic (p_remotes (set_remote i f p)) = map pstatic (p_remotes p).
Proof.
  intros i f p Hf. unfold set_remote. cbn [p_remotes set_p_remotes].
  destruct (nth_error (p_remotes p) i) as [r|] eqn:E.
  - rewrite <- (firstn_skipn i (p_remotes p)) at 3. rewrite !map_app. f_equal.
    assert (E2 : skipn i (p_remotes p) = r :: skipn (S i) (p_remotes p)).
    { clear Hf. revert E. generalize (p_remotes p) as l. induction i as [|i IH]; intros l E.
      - destruct l; [discriminate|]. cbn in E. injection E as ->. reflexivity.
      - destruct l as [|y l]; [discriminate|]. cbn in E. cbn [skipn]. rewrite (IH l E). reflexivity. }
    rewrite E2. cbn [map app]. rewrite Hf. reflexivity.
  - apply nth_error_None in E. cbn [app]. rewrite firstn_all2 by exact E. rewrite skipn_all2 by lia. rewrite app_nil_r. reflexivity.
Qed.

Lemma remote_steps : forall pid i f x n n', wr pid (set_remote i f) n = Ok (x, n') ->
  (forall r, pstatic (f r) = pstatic r) -> steps n n'.
Proof.
  intros pid i f x n n' H Hf. eapply wr_steps; [exact H|]. intros p Hp.
  pose proof (set_remote_static i f p Hf) as E. unfold set_remote in *. apply ps_remotes. exact E.
Qed.
Lemma remote_trk : forall pid i f x n n', wr pid (set_remote i f) n = Ok (x, n') -> trk pid n n'.
Proof. intros pid i f x n n' H. eapply trk_wr; [exact H| |]; intros p; [reflexivity | split; reflexivity]. Qed.

Lemma rd_remote_ok : forall pid i r n n', rd_remote pid i n = Ok (r, n') ->
  n' = n /\ exists p, find_id (n_peers n) pid = Some p /\ nth_error (p_remotes p) i = Some r.
Proof.
  intros pid i r n n' H. unfold rd_remote in H. minv. split; [reflexivity|]. exists a. split; assumption.
Qed.

Lemma set_remote_length : forall i f p, length (p_remotes (set_remote i f p)) = length (p_remotes p).
Proof.
  intros i f p. unfold set_remote. cbn [p_remotes set_p_remotes].
  destruct (nth_error (p_remotes p) i) as [r|] eqn:E.
  - assert (Hlt : (i < length (p_remotes p))%nat) by (apply nth_error_Some; congruence).
    rewrite !app_length, firstn_length, skipn_length. cbn [length]. lia.
  - apply nth_error_None in E. cbn [app]. rewrite firstn_all2 by exact E. rewrite skipn_all2 by lia. rewrite app_nil_r. reflexivity.
Qed.

Lemma resolve_peer_steps : forall pid i x n n', resolve_peer pid i n = Ok (x, n') -> steps n n'.
Proof.
  intros pid i x n n' H. unfold resolve_peer in H.
  bind H as p m H1. apply rd_ok in H1. destruct H1 as [Hf ->].
  destruct (is_dynamic p) eqn:Ed; [discriminate|].
  bind H as r m H1. apply rd_remote_ok in H1. destruct H1 as [-> (p' & Hf' & Hr)]. rewrite Hf in Hf'. injection Hf' as <-.
  bind H as now m H1. apply gets_ok in H1. destruct H1 as [-> ->].
  destruct (negb _); [apply ret_ok in H; destruct H as [_ ->]; apply steps_refl|].
  bind H as u m1 H1. pose proof (wr_ok _ _ _ _ _ H1) as (p1 & _ & E1).
  apply remote_steps in H1; [|intros y; reflexivity].
  bind H as ok m2 H2. pose proof (flip_same _ _ _ H2) as (l2 & E2). apply flip_steps in H2.
  destruct ok; unfold when in H; [|apply ret_ok in H; destruct H as [_ ->]; chain].
  bind H as u3 m3 H3. pose proof (emit_ok _ _ _ _ H3) as E3. apply emit_steps in H3; [|exact I].
  apply modn_ok in H. eapply steps_trans; [exact H1|]. eapply steps_trans; [exact H2|]. eapply steps_trans; [exact H3|].
  rewrite H. apply steps_one. apply N_resolving. intros [pid' i'] [E | Hin]; [|left; exact Hin].
  injection E as <- <-. right. exists (set_remote i (set_r_to (n_now n + MIN_RESOLVE_INTERVAL)) p).
  split; [|split].
  - rewrite E3, E2, E1. cbn [n_peers set_n_out set_n_orc set_n_peers fst]. apply find_id_upd_same; [intros q; reflexivity | exact Hf].
  - exact Ed.
  - cbn [snd]. rewrite set_remote_length. apply nth_error_Some. congruence.
Qed.
#[local] Hint Resolve resolve_peer_steps : nsteps.
Lemma resolve_peer_trk : forall q pid i x n n', resolve_peer pid i n = Ok (x, n') -> trk q n n'.
Proof.
  intros q pid i x n n' H. unfold resolve_peer in H. minv;
    repeat match goal with H : rd_remote _ _ _ = _ |- _ => apply rd_remote_ok in H; destruct H as [H _]; subst end; try apply trk_refl.
  - eapply trk_trans; [eapply trk_wr_other; [eassumption| |]; intros p; [reflexivity | split; reflexivity]|].
    eapply trk_trans; [apply trk_orc; eapply flip_same; eassumption|].
    match goal with He : emit _ ?m = Ok (_, ?m1), Hm : modn _ ?m1 = Ok (_, ?m2) |- _ =>
      apply trk_peers; apply modn_ok in Hm; apply emit_ok in He; rewrite Hm, He; reflexivity end.
  - eapply trk_trans; [eapply trk_wr_other; [eassumption| |]; intros p; [reflexivity | split; reflexivity]|].
    apply trk_orc; eapply flip_same; eassumption.
Qed.

Lemma setup_peer_steps : forall pid x n n', setup_peer P pid n = Ok (x, n') ->
  (forall p, find_id (n_peers n) pid = Some p -> p_state p = Inactive) ->
  steps n n' /\ (forall p, find_id (n_peers n') pid = Some p -> is_enabled p = true -> actp p) /\
  ((exists p, find_id (n_peers n) pid = Some p /\ is_enabled p = false) -> forall p, find_id (n_peers n') pid = Some p -> p_state p = Inactive).
Proof.
  intros pid x n n' H Hi. unfold setup_peer in H.
  bind H as now m H1. apply gets_ok in H1. destruct H1 as [-> ->].
  bind H as u m1 H1. bind H as p m2 H2. apply rd_ok in H2. destruct H2 as [Hf ->].
  assert (St1 : steps n m1).
  { eapply wr_steps; [exact H1|]. intros q Hq. cbv beta zeta.
    match goal with |- pstep _ _ (set_p_reset_to (if is_dynamic ?y then _ else _) _) => change (is_dynamic y) with (is_dynamic q) end.
    apply ps_setup; [exact (Hi q Hq)|]. rewrite map_map. apply map_ext. intros r. reflexivity. }
  assert (Hs : p_state p = Inactive /\ exists p0, find_id (n_peers n) pid = Some p0 /\ is_enabled p0 = is_enabled p).
  { apply wr_ok in H1. destruct H1 as (p0 & Hp0 & ->). cbn [n_peers set_n_peers] in Hf.
    erewrite find_id_upd_same in Hf; [|intros q; reflexivity | exact Hp0].
    injection Hf as <-. cbv zeta. split; [cbn; exact (Hi p0 Hp0) | exists p0; split; [exact Hp0 | reflexivity]]. }
  destruct Hs as [Hs (p0 & Hp0 & Een0)].
  destruct (is_enabled p) eqn:Een; cbn [negb] in H;
    [|apply ret_ok in H; destruct H as [_ ->]; split; [fin | split; [intros q Hq; rewrite Hf in Hq; injection Hq as <-; congruence | intros _ q Hq; rewrite Hf in Hq; injection Hq as <-; exact Hs]]].
  match goal with |- ?A /\ _ => cut (A /\ act pid n') end.
  { intros [X Y]. split; [exact X | split; [intros q Hq _; exact (Y q Hq) | intros (p1 & Hp1 & E1); rewrite Hp0 in Hp1; injection Hp1 as <-; congruence]]. }
  assert (Ho : off pid m1).
  { intros q Hq. rewrite Hf in Hq. injection Hq as <-. split; [|exact Een]. unfold is_established. rewrite Hs. reflexivity. }
  bind H as u2 m2 H2.
  assert (S2 : steps m1 m2 /\ trk pid m1 m2).
  { assert (Hw : forall m m' y, wr pid (set_p_iface true) m = Ok (y, m') -> steps m m' /\ trk pid m m').
    { intros m m' y Hw. split.
      - eapply wr_steps; [exact Hw|]. intros q _. timer.
      - eapply trk_wr; [exact Hw| |]; intros q; [reflexivity | split; reflexivity]. }
    destruct (c_shared_iface P); [exact (Hw _ _ _ H2)|].
    destruct (_ && _ && _)%bool; [|apply ret_ok in H2; destruct H2 as [_ ->]; split; [apply steps_refl | apply trk_refl]].
    bind H2 as ok m3 H3. pose proof (flip_same _ _ _ H3) as T3. apply flip_steps in H3.
    destruct ok.
    - apply Hw in H2. destruct H2 as [A B]. split; [chain; exact A|]. eapply trk_trans; [apply trk_orc; exact T3 | exact B].
    - destruct (p_dir p); [|discriminate]. apply ret_ok in H2. destruct H2 as [_ ->]. split; [exact H3 | apply trk_orc; exact T3]. }
  destruct S2 as [S2 T2]. clear H1 H2.
  bind H as u3 m3 H3.
  assert (S3 : steps m2 m3 /\ act pid m3).
  { destruct (p_next_remote p) as [i|].
    - bind H3 as r m4 H4. apply rd_remote_ok in H4. destruct H4 as [-> _].
      bind H3 as u4 m4 H4. pose proof (remote_trk _ _ _ _ _ _ H4) as T4.
      apply remote_steps in H4; [|intros y; reflexivity].
      assert (Ho4 : off pid m4) by (eapply off_trk; [exact Ho | eapply trk_trans; eassumption]).
      destruct (r_host r).
      + bind H3 as u5 m5 H5. pose proof (state_act _ _ _ _ _ H5 ltac:(discriminate)) as A5.
        apply state_steps in H5; [|exact Ho4|discriminate|discriminate].
        bind H3 as u6 m6 H6. bind H3 as d m7 H7. split; [fin|].
        eapply act_trk; [exact A5|]. eapply trk_trans; [eapply resolve_peer_trk; exact H6|].
        eapply trk_trans; [apply trk_orc; eapply default_rand_same; exact H7 | eapply set_next_handshake_trk; exact H3].
      + apply init_handshake_steps in H3; [|exact Ho4]. destruct H3 as [H3 A3]. split; [chain | exact A3].
    - pose proof (state_act _ _ _ _ _ H3 ltac:(discriminate)) as A5.
      apply state_steps in H3; [split; assumption | eapply off_trk; eassumption | discriminate | discriminate]. }
  destruct S3 as [S3 A3]. split; [fin|]. eapply act_trk; [exact A3 | eapply schedule_peer_task_trk; exact H].
Qed.

Lemma peer_reset_steps : forall pid x n n', peer_reset P pid n = Ok (x, n') -> f_rs fl pid = true -> steps n n'.
Proof.
  intros pid x n n' H Hrs. unfold peer_reset in H.
  bind H as p m H1. apply rd_ok in H1. destruct H1 as [Hf ->].
  bind H as u m1 H1.
  assert (A : steps n m1 /\ forall q, find_id (n_peers m1) pid = Some q -> p_state q = Inactive).
  { assert (Hr : reset_peer P pid n = Ok (u, m1) -> steps n m1 /\ forall q, find_id (n_peers m1) pid = Some q -> p_state q = Inactive).
    { intros Hr. split; [eapply reset_peer_steps; [exact Hr | exact Hrs]|]. intros q Hq.
      apply reset_peer_after in Hr. destruct Hr as (p0 & _ & E). rewrite E in Hq. injection Hq as <-. apply reset_fn_fields. }
    destruct (p_state p) eqn:Es; try (apply Hr; exact H1).
    apply ret_ok in H1. destruct H1 as [_ ->]. split; [apply steps_refl|]. intros q Hq. rewrite Hf in Hq. injection Hq as <-. exact Es. }
  destruct A as [A1 A2]. apply setup_peer_steps in H; [|exact A2]. destruct H as [H _]. chain.
Qed.
#[local] Hint Resolve peer_reset_steps : nsteps.

Lemma peer_delete_steps : forall pid x n n', peer_delete P pid n = Ok (x, n') -> f_rs fl pid = true ->
  f_rl fl = true \/ (forall p, find_id (n_peers n) pid = Some p -> is_dynamic p = true) -> steps n n'.
Proof.
  intros pid x n n' H Hrs Hd. unfold peer_delete in H. bind H as u m H1.
  pose proof (reset_peer_after _ _ _ _ H1) as (p & Hf & Hf'). apply reset_peer_steps in H1; [|exact Hrs].
  apply modn_ok in H. eapply steps_trans; [exact H1|]. rewrite H. apply steps_one.
  destruct (reset_fn_fields (set_p_sock None p)) as (_ & _ & _ & _ & _ & _ & E0 & E1 & _ & E2 & E3 & _).
  eapply N_delete; [exact Hf' | exact E3 | exact E2 | exact E1 | exact Hrs|].
  destruct Hd as [Hd|Hd]; [left; exact Hd|]. right. specialize (Hd p Hf). unfold is_dynamic in *. rewrite E0. exact Hd.
Qed.
#[local] Hint Resolve peer_delete_steps : nsteps.

Lemma reset_peer_address_steps : forall pid x n n', reset_peer_address P pid n = Ok (x, n') -> f_rs fl pid = true -> steps n n'.
Proof.
  intros pid x n n' H Hrs. unfold reset_peer_address in H. minv; [fin|].
  wrs ltac:(fun p Hp => idtac; apply ps_addr_none; rewrite F in Hp; injection Hp as <-; exact B). fin.
Qed.
#[local] Hint Resolve reset_peer_address_steps : nsteps.

End Steps.
