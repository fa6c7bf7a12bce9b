(** What one node adds to the agreement: its replies are well-formed, and its sessions come
    from packets with valid codes. *)
From Verif Require Import Base BaseLemmas BufferModel BufferProofs NonceModel MethodModel MethodProofs HandshakeModel HandshakeSpec HandshakeProofs HandshakeProofs2 HandshakeProofs3 HandshakeProofs4
  NodeModel NodeSpec NodeSteps NodeWf NodeInv NodeFun NodeFun2 NodeFun3 NodeFun4 NodeProofs NodeProofs3 NodeProofs4 NodeConnect AgreeSpec AgreeProofs.
From Coq Require Import Lia ZifyBool ZifyNat ZifyN.
Local Open Scope Z_scope.

(** ** Names *)
Lemma fold_in : forall (l names : list bytes) acc m,
  fold_left (fun method name => if contains l name then Some name else method) names acc = Some m -> acc = Some m \/ In m l.
Proof.
  intros l names. induction names as [|x names IH]; intros acc m H; [left; exact H|]. cbn [fold_left] in H.
  destruct (IH _ _ H) as [E | E]; [|right; exact E]. destruct (contains l x) eqn:C; [|left; exact E].
  right. injection E as <-. apply contains_spec. exact C.
Qed.
Lemma by_list_in : forall l d m, get_method_by_name_list l d = Some m -> In m l.
Proof.
  intros l d m H. unfold get_method_by_name_list in H. destruct d as [[|b d]|]; try discriminate.
  apply fold_in in H. destruct H as [H | H]; [discriminate | exact H].
Qed.
Lemma by_name_in : forall l d m, get_method_by_name l d = Some m -> In m l.
Proof.
  intros l d m H. unfold get_method_by_name in H. destruct d as [d|]; [|discriminate]. cbv zeta in H.
  destruct (contains l (c_str d)) eqn:C; [|discriminate]. injection H as <-. apply contains_spec. exact C.
Qed.

(** ** The history of a node *)
Definition told (P : params) (n : node) (o : out) : Prop :=
  match o with
  | OSession pid key conf initiator serial hk salt sigma method sid src =>
      c_shared P initiator serial key hk = Some (sigma, salt) /\ exists g, In method (c_methods P g)
  | OResp pid a serial m => exists p sigma,
      c_shared P false serial (p_key p) (g_hk m) = Some (sigma, g_salt m) /\ g_data m = wire_resp P p serial (g_hk m) (g_salt m)
  | OFin pid a m => exists t p conf serial sigma method sid src,
      In (t, OSession pid (p_key p) conf true serial (g_hk m) (g_salt m) sigma method sid src) (n_out n) /\
      g_data m = wire_fin P p serial (g_hk m) (g_salt m) method
  | _ => True
  end.
Lemma told_more : forall P n n' l o, n_out n' = l ++ n_out n -> told P n o -> told P n' o.
Proof.
  intros P n n' l o E H. destruct o; try exact H. cbn [told] in *. destruct H as (t & p & conf & serial & sigma & method & sid & src & Hin & Hd).
  exists t, p, conf, serial, sigma, method, sid, src. split; [|exact Hd]. rewrite E. apply in_or_app. right. exact Hin.
Qed.
Lemma nstep_fin : forall P ev fl n n' t pid a m, nstep P ev fl n n' -> n_out n' = (t, OFin pid a m) :: n_out n -> plain_out P ev fl n (OFin pid a m).
Proof.
  intros P ev fl n n' t pid a m H E.
  destruct H; outcbn; try (exfalso; exact (cons_self _ _ _ E)); try (injection E as _ E; subst; try discriminate; try assumption).
  destruct (is_established p); [discriminate | exfalso; exact (cons_self _ _ _ E)].
Qed.

(** ** Reading replies *)
Lemma header_reads : forall p pkt ctl, carries (control_header ++ p) pkt ctl -> pkt = p.
Proof.
  intros p pkt ctl H. unfold control_header in H. cbn [app] in H.
  inversion H as [t r Hne E|v h t r Hv Hl E]; [congruence|].
  do 10 (destruct h as [|?b h]; [discriminate Hl|]). destruct h; [|discriminate Hl]. cbn [app] in *. congruence.
Qed.
Lemma reply_reads : forall c type mtu method methods sender recipient eph reph mac d pkt h,
  (hc_max_buffer c mod 16 = 0 /\ 1232 <= hc_max_buffer c)%nat ->
  key_ok sender -> key_ok recipient -> key_ok eph -> key_ok reph -> (forall x, length (mac x) = 32%nat) ->
  with_header (build_reply c type mtu method methods sender recipient eph reph mac) = Ok d -> reads d pkt h ->
  exists tag, value pkt h R_TLV_MAC = Some tag /\ length tag = 32%nat /\
    forall t, (t < RECORD_MAX)%nat -> value pkt h t = find_last t (reply_records c type mtu method methods sender recipient eph reph tag).
Proof.
  intros c type mtu method methods sender recipient eph reph mac d pkt h [B1 B2] K1 K2 K3 K4 Km Hb [(ctl & Hc) Hp].
  destruct (build_reply c type mtu method methods sender recipient eph reph mac) as [p| | |] eqn:Eb; try discriminate.
  cbn [with_header] in Hb. injection Hb as <-. apply header_reads in Hc. subst pkt.
  destruct (mac_round_trip c type mtu method methods sender recipient eph reph mac p B1 B2 K1 K2 K3 K4 Km Eb) as (h' & x & H1 & H2 & H3 & H4).
  rewrite Hp in H1. injection H1 as <-. exists (mac x). split; [exact H3|]. split; [apply Km | exact H4].
Qed.
Lemma reply_values : forall c type mtu method methods sender recipient eph reph tag,
  let v := fun t => find_last t (reply_records c type mtu method methods sender recipient eph reph tag) in
  v R_TYPE = Some (le_bytes 1 type) /\ v R_SENDER_KEY = Some sender /\ v R_RECIPIENT_KEY = Some recipient /\
  v R_SENDER_HANDSHAKE_KEY = Some eph /\ v R_RECIPIENT_HANDSHAKE_KEY = Some reph /\
  v R_METHOD_LIST = match methods with [] => None | _ => Some (create_method_list methods) end /\
  v R_METHOD_NAME = match methods with [] => method | _ => None end.
Proof.
  intros c type mtu method methods sender recipient eph reph tag v. unfold v, reply_records, common_records.
  destruct (N.eqb mtu 0), method as [m|], methods as [|m1 l]; repeat split; reflexivity.
Qed.

(** ** Sessions come from packets *)
Lemma verdict_type : forall c ctl rv ty fl, spec_verdict c ctl rv = VProtocol ty fl -> rv R_TYPE = Some [ty].
Proof.
  intros c ctl rv ty fl H. unfold spec_verdict in H. destruct (rv R_TYPE) as [[|t [|t' l]]|]; try discriminate.
  repeat match type of H with
  | (if ?b then _ else _) = _ => destruct b; try discriminate
  | (match rv R_REPLY_CODE with _ => _ end) = _ => destruct (rv R_REPLY_CODE); try discriminate
  end; cbv zeta in H;
  repeat match type of H with
  | (if ?b then _ else _) = _ => destruct b; try discriminate
  | (match rv R_REPLY_CODE with _ => _ end) = _ => destruct (rv R_REPLY_CODE); try discriminate
  end; injection H as <- _; reflexivity.
Qed.

Lemma evidence_reads : forall P ev n p method initiator compat hk key sigma serial src,
  evidence P ev n p method initiator compat hk key sigma serial src ->
  exists sk la d pkt h x, ev = EvRecv sk la src d /\ reads d pkt h /\
    value pkt h R_TYPE = Some [if initiator then 2 else 3]%N /\
    value pkt h R_SENDER_KEY = Some (p_key p) /\ value pkt h R_RECIPIENT_KEY = Some (c_own P) /\
    value pkt h R_SENDER_HANDSHAKE_KEY = Some hk /\ value pkt h R_RECIPIENT_HANDSHAKE_KEY = Some (c_eph P serial) /\
    mac_input pkt h = Some x /\ value pkt h R_TLV_MAC = Some (c_mac P key x) /\
    (if initiator then get_method_by_name_list (c_methods P (p_group p)) (value pkt h R_METHOD_LIST)
     else get_method_by_name (c_methods P (p_group p)) (value pkt h R_METHOD_NAME)) = Some method.
Proof.
  intros P ev n p method initiator compat hk key sigma serial src [E _ _ _ _ _ _ _ _].
  destruct E as (sk & la & d & pkt & ctl & h & w & mac & tlv0 & E1 & E2 & E3 & E4 & E5 & E6 & E7 & E8 & E9 & E10 & E11 & _ & _ & E14).
  destruct (handled_parsed _ _ _ _ E3) as (h0 & X1 & X2 & X3).
  destruct (view_values _ _ _ E4) as (V1 & V2 & V3 & V4 & V5). destruct (V5 _ _ E10) as [V6 V7].
  destruct (parse_inside pkt) as (oh & Hp' & Hin). rewrite X1 in Hp'. injection Hp' as <-. specialize (Hin h0 eq_refl).
  assert (Hin' : records_inside pkt h) by (unfold records_inside in *; rewrite X2, X3; exact Hin).
  rewrite (view_is _ _ Hin') in E4. injection E4 as <-. cbn [w_type w_method w_method_list] in E5, E14.
  destruct (handle_verdict (c_hs P) pkt ctl h0 X1) as (r & R1 & R2 & _). rewrite E3 in R1. injection R1 as <-. cbn [verdict_of] in R2.
  symmetry in R2. apply verdict_type in R2.
  pose proof (classify_spec d) as C. rewrite E2 in C. destruct C as [C _].
  assert (Ev : forall t, value pkt h0 t = value pkt h t) by (intro t; unfold value; rewrite X2; reflexivity).
  exists sk, la, d, pkt, h0, tlv0. split; [exact E1|]. split; [split; [exists ctl; exact C | exact X1]|].
  split; [rewrite R2, E5; destruct initiator; reflexivity|].
  split; [rewrite Ev; exact (V1 _ E6)|]. split; [rewrite Ev; exact (V2 _ E7)|].
  split; [rewrite Ev; exact (V3 _ E8)|]. split; [rewrite Ev; exact (V4 _ E9)|].
  split; [unfold mac_input in *; rewrite <- X2, <- X3; exact V7|].
  split; [rewrite Ev, E11; exact V6|]. rewrite !Ev. exact E14.
Qed.

Lemma nstep_told : forall P ev fl n n' t o, nstep P ev fl n n' -> n_out n' = (t, o) :: n_out n -> told P n o.
Proof.
  intros P ev fl n n' t o H E. destruct o; try exact Logic.I.
  - destruct (nstep_resp _ _ _ _ _ _ _ _ _ _ H E) as (_ & p & _ & (sigma & Hs) & Hd & _). exists p, sigma. split; [exact Hs | exact Hd].
  - destruct (nstep_fin _ _ _ _ _ _ _ _ _ H E) as (p & conf & serial & sigma & method & sid & src & _ & Hin & Hd).
    exists (n_now n), p, conf, serial, sigma, method, sid, src. split; [exact Hin | exact Hd].
  - destruct (nstep_session _ _ _ _ _ _ _ _ _ _ _ _ _ _ _ _ _ H E) as (p & compat & _ & <- & _ & _ & _ & Ev).
    split; [exact (ed_shared _ _ _ _ _ _ _ _ _ _ _ _ Ev)|].
    destruct (evidence_reads _ _ _ _ _ _ _ _ _ _ _ _ Ev) as (_ & _ & _ & pkt & h & x & _ & _ & _ & _ & _ & _ & _ & _ & _ & Hm).
    exists (p_group p). destruct initiator; [exact (by_list_in _ _ _ Hm) | exact (by_name_in _ _ _ Hm)].
Qed.
Lemma history : forall P n, reachable P n -> forall t o, In (t, o) (n_out n) -> told P n o.
Proof.
  intros P n R. revert n R. refine (reachable_ind P (fun n => forall t o, In (t, o) (n_out n) -> told P n o) _ _ _).
  - intros now orc t o [].
  - intros t n I Ht J t' o Hin. apply (told_more P n _ []); [reflexivity|]. exact (J t' o Hin).
  - intros ev fl n n' H I J t o Hin. destruct (nstep_out _ _ _ _ _ H) as [E | (o' & E)].
    + apply (told_more P n _ []); [exact E|]. rewrite E in Hin. exact (J t o Hin).
    + rewrite E in Hin. apply (told_more P n _ [(n_now n, o')]); [exact E|]. destruct Hin as [X | Hin]; [|exact (J t o Hin)].
      injection X as <- <-. exact (nstep_told _ _ _ _ _ _ _ H E).
Qed.

(** ** The groups of a peer during an event *)
Lemma group_steps : forall P ev fl n n', steps P ev fl n n' -> inv0 P n -> forall pid p,
  f_rl fl = false -> find_id (n_peers n') pid = Some p -> group_at P n pid (p_group p).
Proof.
  intros P ev fl n n' H. induction H as [n|n n1 n2 Hs Hr IH]; intros I pid p Hrl Hp.
  - unfold group_at. rewrite Hp. reflexivity.
  - pose proof (inv0_nstep _ _ _ _ _ Hs I) as I1. assert (Hi := wf_ids _ (i_wf _ _ I)). specialize (IH I1 pid p Hrl Hp). unfold group_at in *.
    destruct (find_id (n_peers n1) pid) as [p1|] eqn:E1.
    + destruct (nstep_find _ _ _ _ _ _ _ Hs Hi E1) as [(p0 & E0 & C) | (_ & E0 & _ & c & st & -> & _ & D)].
      * rewrite E0. destruct (pchange_static _ _ _ _ _ _ C) as (_ & _ & E3 & _). congruence.
      * rewrite E0. destruct D as [(D & _) | (_ & D)]; [congruence|]. rewrite <- IH. cbn [p_group new_peer]. rewrite D. reflexivity.
    + destruct (find_id (n_peers n) pid) as [p0|] eqn:E0; [|exact IH].
      assert (S : steps P ev fl n n2) by (eapply steps_step; eassumption).
      exact (eq_sym (proj1 (proj2 (fix_steps _ _ _ _ _ _ _ _ S I E0 Hp)))).
Qed.
