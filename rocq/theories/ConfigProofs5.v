(** The statements of a peer, with included files. *)
From Verif Require Import Base BufferModel MethodModel AddrModel LexModel LexSpec HexSpec ConfigModel ConfigSpec ConfigProofs ConfigProofs2 ConfigProofs3
  ConfigProofs4.
From Verif Require HexModel HexProofs NameModel.
From Coq Require Import String.
Local Open Scope N_scope.

(** * Keys *)

Lemma cells_set_map k : cells_set (map Some k) = Ok k.
Proof. induction k as [|x k IH]; cbn [map cells_set]; [reflexivity|]. rewrite IH. reflexivity. Qed.
Lemma key_iff E s : (exists k, key_is E s k /\ read_peer_key E s = Ok (Some k)) \/ ((forall k, ~ key_is E s k) /\ read_peer_key E s = Ok None).
Proof.
  unfold read_peer_key. destruct (HexProofs.read_key_iff s) as [(k & L & S & ->)|[N ->]]; cbn [bind].
  - rewrite cells_set_map. cbn [bind]. destruct (e_point E k) eqn:P.
    + left. exists k. split; [repeat split; assumption|reflexivity].
    + right. split; [|reflexivity]. intros k' (L' & S' & P'). rewrite (HexProofs.spells_fun _ _ S' _ S) in P'. congruence.
  - right. split; [|reflexivity]. intros k (L & S & _). exact (N k L S).
Qed.
Definition key_of (E : env) (s : bytes) : option bytes := match read_peer_key E s with Ok k => k | _ => None end.
Lemma key_of_ok E s : read_peer_key E s = Ok (key_of E s).
Proof. unfold key_of. destruct (key_iff E s) as [(k & _ & ->)|[_ ->]]; reflexivity. Qed.
Lemma key_of_iff E s k : key_of E s = Some k <-> key_is E s k.
Proof.
  unfold key_of. destruct (key_iff E s) as [(k' & K & ->)|[N ->]].
  - split; [intros [= <-]; exact K|]. intros (L & S & _). destruct K as (L' & S' & _). rewrite (HexProofs.spells_fun _ _ S _ S'). reflexivity.
  - split; [discriminate|]. intros K. destruct (N k K).
Qed.

(** * Settings *)

Definition app_pset (E : env) (p : peer_conf) (s : psetting) : peer_conf :=
  match s with
  | PFloat b => set_pc_float b p
  | PKey s => set_pc_key (key_of E s) p
  | PIface s => set_pc_ifname (Some s) p
  | PMtu n => set_pc_mtu n p
  | _ => match remote_is E s with Some r => set_pc_remotes (pc_remotes p ++ [r]) p | None => p end
  end.
Definition app_psets (E : env) (ps : list psetting) (p : peer_conf) : peer_conf := fold_left (app_pset E) ps p.
Lemma app_pset_group E p s : pc_group (app_pset E p s) = pc_group p.
Proof. destruct s as [? ? []|? ? []|? ? ? []|? ? []| | | |]; reflexivity. Qed.
Lemma app_psets_group E ps : forall p, pc_group (app_psets E ps p) = pc_group p.
Proof. induction ps as [|s ps IH]; intros p; [reflexivity|]. cbn. unfold app_psets in IH. rewrite IH. apply app_pset_group. Qed.
Lemma app_psets_app E a b p : app_psets E (a ++ b) p = app_psets E b (app_psets E a p).
Proof. apply fold_left_app. Qed.

(** What a file read for a peer does *)
Definition peer_reader (E : env) (d : nat) (rd : reader) : Prop :=
  forall cwd f g q c c' q', (g < List.length (c_groups c))%nat ->
    (rd cwd f g (Some q) c = Ok (Some (c', q')) <->
     exists d' dir inner ps, d = S d' /\ file_is E cwd f dir (peer_text inner ++ [LEof]) /\ peer_means E d' dir inner ps /\
       c' = c /\ q' = Some (app_psets E ps (set_pc_group g q))).
Lemma set_group_same q : set_pc_group (pc_group q) q = q.
Proof. destruct q. reflexivity. Qed.

Lemma remote_sound E ts c g q u s' : yields (peer_remote E ;; semicolon) (Pst ts c g (Some q)) u s' ->
  exists st r, TKey Kremote :: ts = map tok_of (psetting_text st) ++ r /\ psetting_fine st /\ s' = Pst r c g (Some (app_pset E q st)).
Proof.
  intros H. step H. unfold peer_remote in H0.
  step H0. apply opt_inv in H1. step H0.
  assert (B : exists (pre : list lexeme) r, ts = map tok_of pre ++ r /\ s1 = Pst r c g (Some q) /\
    ((a0 = true /\ a1 = false /\ pre = [family_text Inet]) \/ (a0 = false /\ a1 = true /\ pre = [family_text Inet6]) \/ (a0 = false /\ a1 = false /\ pre = []))).
  { destruct a0.
    - destruct H1 as (r & -> & ->). apply ret_inv in H2. destruct H2 as [-> ->]. exists [family_text Inet], r.
      split; [reflexivity|]. split; [reflexivity|]. left. repeat split.
    - subst s0. apply opt_inv in H2. destruct a1.
      + destruct H2 as (r & -> & ->). exists [family_text Inet6], r. split; [reflexivity|]. split; [reflexivity|]. right. left. repeat split.
      + subst s1. exists [], ts. split; [reflexivity|]. split; [reflexivity|]. right. right. repeat split. }
  clear H1 H2. destruct B as (pre & r & -> & -> & B).
  next H0. destruct a2 as [| | |v|a6|a6 i|a4| | |]; try dead.
  - step H0. apply port_inv in H1. destruct H1 as (y & r & -> & P & ->). unfold add_remote in H0. repeat prim. match type of P with port_fine (_, ?n) => rename n into pn end.
    assert (HN : htons pn = port_bytes pn) by (apply htons_is; unfold port_fine in P; cbn in P; lia).
    rewrite HN.
    exists (PRemoteHost (if a0 then Some Inet else if a1 then Some Inet6 else None) v (y, pn)). eexists.
    split; [|split; [exact P|reflexivity]].
    destruct B as [(-> & -> & ->)|[(-> & -> & ->)|(-> & -> & ->)]];
      unfold psetting_text; rewrite !map_app; cbn [map app]; rewrite <- !app_assoc; reflexivity.
  - destruct a0; [dead|]. step H0. apply port_inv in H1. destruct H1 as (y & r & -> & P & ->). unfold add_remote in H0. repeat prim. match type of P with port_fine (_, ?n) => rename n into pn end.
    assert (HN : htons pn = port_bytes pn) by (apply htons_is; unfold port_fine in P; cbn in P; lia).
    rewrite HN. destruct B as [(F & _)|[(_ & -> & ->)|(_ & -> & ->)]]; [discriminate| |].
    + exists (PRemote6 true a6 (y, pn)). eexists. split; [|split; [exact P|]]; [|unfold app_pset, remote_is, remote_addr, inet6, address_simplify; destruct (is_v4mapped a6); reflexivity].
      unfold psetting_text. rewrite !map_app. cbn [map app said_text]. rewrite <- !app_assoc. reflexivity.
    + exists (PRemote6 false a6 (y, pn)). eexists. split; [|split; [exact P|]]; [|unfold app_pset, remote_is, remote_addr, inet6, address_simplify; destruct (is_v4mapped a6); reflexivity].
      unfold psetting_text. rewrite !map_app. cbn [map app said_text]. rewrite <- !app_assoc. reflexivity.
  - destruct a0; [dead|]. step H0. apply port_inv in H1. destruct H1 as (y & r & -> & P & ->). unfold add_remote in H0. repeat prim. match type of P with port_fine (_, ?n) => rename n into pn end.
    assert (HN : htons pn = port_bytes pn) by (apply htons_is; unfold port_fine in P; cbn in P; lia).
    rewrite HN. destruct B as [(F & _)|[(_ & -> & ->)|(_ & -> & ->)]]; [discriminate| |].
    + exists (PRemoteScoped true a6 i (y, pn)). eexists. split; [|split; [exact P|reflexivity]].
      unfold psetting_text. rewrite !map_app. cbn [map app said_text]. rewrite <- !app_assoc. reflexivity.
    + exists (PRemoteScoped false a6 i (y, pn)). eexists. split; [|split; [exact P|reflexivity]].
      unfold psetting_text. rewrite !map_app. cbn [map app said_text]. rewrite <- !app_assoc. reflexivity.
  - destruct a1; [dead|]. step H0. apply port_inv in H1. destruct H1 as (y & r & -> & P & ->). unfold add_remote in H0. repeat prim. match type of P with port_fine (_, ?n) => rename n into pn end.
    assert (HN : htons pn = port_bytes pn) by (apply htons_is; unfold port_fine in P; cbn in P; lia).
    rewrite HN. destruct B as [(-> & _ & ->)|[(_ & F & _)|(-> & _ & ->)]]; [|discriminate|].
    + exists (PRemote4 true a4 (y, pn)). eexists. split; [|split; [exact P|reflexivity]].
      unfold psetting_text. rewrite !map_app. cbn [map app said_text]. rewrite <- !app_assoc. reflexivity.
    + exists (PRemote4 false a4 (y, pn)). eexists. split; [|split; [exact P|reflexivity]].
      unfold psetting_text. rewrite !map_app. cbn [map app said_text]. rewrite <- !app_assoc. reflexivity.
Qed.

Lemma psetting_ok E rd cwd s r c g q : psetting_fine s ->
  yields (peer_stmt E rd cwd (tok_of (hd semi (psetting_text s)))) (Pst (map tok_of (tl (psetting_text s)) ++ r) c g (Some q)) tt
    (Pst r c g (Some (app_pset E q s))).
Proof.
  intros F.
  assert (R : forall pre b4 b6 v rm, (b4 = true /\ b6 = false /\ pre = [family_text Inet]) \/ (b4 = false /\ b6 = true /\ pre = [family_text Inet6]) \/
      (b4 = false /\ b6 = false /\ pre = []) ->
    (forall k, tok_of v <> TKey k) -> (forall e, tok_of v <> TErr e) ->
    forall y n, (forall ts, yields (match tok_of v with
      | TAddr4 a => if b6 : bool then fail else let! n <- port; add_remote (remote_addr (AInet a (htons n)))
      | TAddr6 a => if b4 : bool then fail else let! n <- port; add_remote (remote_addr (AInet6 a (htons n) (repeat 0 4) (repeat 0 4)))
      | TScoped a i => if b4 : bool then fail else let! n <- port; add_remote (RHost (e_ntop6 E a ++ [37] ++ i) (Some Inet6) (htons n))
      | TStr s => let! n <- port; add_remote (RHost s (if b4 : bool then Some Inet else if b6 : bool then Some Inet6 else None) (htons n))
      | _ => fail
      end) (Pst (map tok_of (port_text (y, n)) ++ ts) c g (Some q)) tt (Pst ts c g (Some rm))) ->
    yields (peer_remote E ;; semicolon) (Pst (map tok_of (pre ++ [v] ++ port_text (y, n) ++ [semi]) ++ r) c g (Some q)) tt (Pst r c g (Some rm))).
  { intros pre b4 b6 v rm B NK NE y n Y. eapply bnd_intro; [|apply semi_ok]. unfold peer_remote. rewrite !map_app, <- !app_assoc.
    assert (O : forall k z, starts (is_kw k) (map tok_of [v] ++ z)).
    { intros k z. cbn [map app]. unfold starts, is_kw. destruct (tok_of v) eqn:T; try reflexivity; [exact (NE _ eq_refl)|destruct (NK _ eq_refl)]. }
    destruct B as [(-> & -> & ->)|[(-> & -> & ->)|(-> & -> & ->)]]; cbn [map app family_text]; unfold family_text; autorewrite with tk.
    - eapply bnd_intro; [apply opt_yes|]. cbv iota. eapply bnd_intro; [apply ret_ok|]. eapply bnd_intro; [apply next_ok; exact NE|]. cbv beta. apply Y.
    - eapply bnd_intro; [apply opt_no; reflexivity|]. cbv iota. eapply bnd_intro; [apply opt_yes|]. eapply bnd_intro; [apply next_ok; exact NE|]. cbv beta. apply Y.
    - eapply bnd_intro; [apply opt_no; apply O|]. cbv iota. eapply bnd_intro; [apply opt_no; apply O|].
      eapply bnd_intro; [apply next_ok; exact NE|]. cbv beta. apply Y. }
  destruct s; cbn [psetting_fine] in F; try destruct p as [y n];
    try (assert (HN : htons n = port_bytes n) by (apply htons_is; unfold port_fine in F; cbn in F; lia)).
  - change (yields (peer_remote E ;; semicolon) (Pst (map tok_of (tl (psetting_text (PRemote4 said a (y, n)))) ++ r) c g (Some q)) tt
      (Pst r c g (Some (app_pset E q (PRemote4 said a (y, n)))))).
    replace (tl (psetting_text (PRemote4 said a (y, n)))) with (said_text said Inet ++ [LAddr4 a] ++ port_text (y, n) ++ [semi])
      by (unfold psetting_text; cbn [tl app]; rewrite <- !app_assoc; reflexivity).
    apply (R (said_text said Inet) said false (LAddr4 a)); [destruct said; auto|discriminate|discriminate|].
    intros ts. cbn [tok_of]. eapply bnd_intro; [apply port_ok; exact F|]. rewrite HN. reflexivity.
  - change (yields (peer_remote E ;; semicolon) (Pst (map tok_of (tl (psetting_text (PRemote6 said a (y, n)))) ++ r) c g (Some q)) tt
      (Pst r c g (Some (app_pset E q (PRemote6 said a (y, n)))))).
    replace (tl (psetting_text (PRemote6 said a (y, n)))) with (said_text said Inet6 ++ [LAddr6 a] ++ port_text (y, n) ++ [semi])
      by (unfold psetting_text; cbn [tl app]; rewrite <- !app_assoc; reflexivity).
    apply (R (said_text said Inet6) false said (LAddr6 a)); [destruct said; auto|discriminate|discriminate|].
    intros ts. cbn [tok_of]. eapply bnd_intro; [apply port_ok; exact F|]. rewrite HN. unfold add_remote, remote_addr, address_simplify, app_pset, remote_is, inet6.
    destruct (is_v4mapped a); reflexivity.
  - change (yields (peer_remote E ;; semicolon) (Pst (map tok_of (tl (psetting_text (PRemoteScoped said a i (y, n)))) ++ r) c g (Some q)) tt
      (Pst r c g (Some (app_pset E q (PRemoteScoped said a i (y, n)))))).
    replace (tl (psetting_text (PRemoteScoped said a i (y, n)))) with (said_text said Inet6 ++ [LAddr6Scoped a i] ++ port_text (y, n) ++ [semi])
      by (unfold psetting_text; cbn [tl app]; rewrite <- !app_assoc; reflexivity).
    apply (R (said_text said Inet6) false said (LAddr6Scoped a i)); [destruct said; auto|discriminate|discriminate|].
    intros ts. cbn [tok_of]. eapply bnd_intro; [apply port_ok; exact F|]. rewrite HN. reflexivity.
  - change (yields (peer_remote E ;; semicolon) (Pst (map tok_of (tl (psetting_text (PRemoteHost af s (y, n)))) ++ r) c g (Some q)) tt
      (Pst r c g (Some (app_pset E q (PRemoteHost af s (y, n)))))).
    replace (tl (psetting_text (PRemoteHost af s (y, n)))) with (match af with None => [] | Some f => [family_text f] end ++ [LStr s] ++ port_text (y, n) ++ [semi])
      by (unfold psetting_text; cbn [tl app]; rewrite <- !app_assoc; reflexivity).
    apply (R (match af with None => [] | Some f => [family_text f] end) (match af with Some Inet => true | _ => false end)
             (match af with Some Inet6 => true | _ => false end) (LStr s)); [destruct af as [[|]|]; auto|discriminate|discriminate|].
    intros ts. cbn [tok_of]. eapply bnd_intro; [apply port_ok; exact F|]. rewrite HN. destruct af as [[|]|]; reflexivity.
  - eapply bnd_intro; [apply boolean_ok|]. go.
  - eapply bnd_intro; [apply str_ok|]. cbv beta. eapply bnd_intro; [unfold yields, lift; rewrite key_of_ok; reflexivity|]. go.
  - apply ifname_iff in F. eapply bnd_intro; [apply str_ok|]. cbv beta. rewrite F. go.
  - eapply bnd_intro; [apply uint_ok|]. cbv beta. destruct ((n <? 576) || (65535 <? n)) eqn:D; [lia|]. rewrite N.mod_small by lia. go.
Qed.

(** * Statements *)

Lemma call_inv rd cwd f g q ts c g' p a s' : yields (call rd cwd f g q) (Pst ts c g' p) a s' ->
  exists c', rd cwd f g q c = Ok (Some (c', a)) /\ s' = Pst ts c' g' p.
Proof.
  unfold yields, call. cbn. destruct (rd cwd f g q c) as [[[c' p']|]| | |]; cbn; try discriminate. intros [= -> <-]. exists c'. split; reflexivity.
Qed.
Lemma call_ok rd cwd f g q ts c g' p a c' : rd cwd f g q c = Ok (Some (c', a)) -> yields (call rd cwd f g q) (Pst ts c g' p) a (Pst ts c' g' p).
Proof. unfold yields, call. cbn. intros ->. reflexivity. Qed.

Definition ended (r : list tok) : Prop := match r with t :: _ => at_end t = true | [] => False end.

Lemma peer_stmt_sound E d rd cwd t ts c g q u s' : peer_reader E d rd -> (g < List.length (c_groups c))%nat -> pc_group q = g ->
  yields (peer_stmt E rd cwd t) (Pst ts c g (Some q)) u s' ->
  exists st ps r, t :: ts = map tok_of (pstmt_text st) ++ r /\ (forall body rest, peer_means E d cwd body rest -> peer_means E d cwd (st :: body) (ps ++ rest)) /\
    s' = Pst r c g (Some (app_psets E ps q)).
Proof.
  intros RD G Q H.
  assert (S : forall st r, t :: ts = map tok_of (psetting_text st) ++ r -> psetting_fine st -> s' = Pst r c g (Some (app_pset E q st)) ->
    exists st ps r, t :: ts = map tok_of (pstmt_text st) ++ r /\ (forall body rest, peer_means E d cwd body rest -> peer_means E d cwd (st :: body) (ps ++ rest)) /\
    s' = Pst r c g (Some (app_psets E ps q))).
  { intros st r T F ->. exists (PSet st), [st], r. split; [exact T|]. split; [|reflexivity]. intros body rest M. apply pm_set; assumption. }
  destruct t as [| | | | | | | |k|]; try dead. destruct k; try dead; cbn [peer_stmt] in H.
  - step H. apply boolean_inv in H0. destruct H0 as (r & -> & ->). steps H. repeat prim. eapply (S (PFloat a)); [reflexivity|exact Logic.I|reflexivity].
  - step H. prim. step H. prim. step H. prim. step H. apply call_inv in H0. destruct H0 as (c' & R & ->).
    step H. prim. repeat prim.
    apply (RD cwd a (pc_group q) q c c' _ G) in R. rewrite set_group_same in R. destruct R as (d' & dir & inner & ps & -> & FI & M & -> & ->).
    exists (PInclude a), ps. eexists. split; [reflexivity|]. split; [|reflexivity]. intros body rest MB. exact (pm_include _ _ _ _ _ _ _ _ _ FI M MB).
  - steps H. destruct (ifname_ok a) eqn:C; [|dead]. apply ifname_iff in C. repeat prim. eapply (S (PIface a)); [reflexivity|exact C|reflexivity].
  - step H. prim. step H. apply lift_inv in H0. destruct H0 as [K ->]. rewrite key_of_ok in K. injection K as <-. steps H. repeat prim.
    eapply (S (PKey a)); [reflexivity|exact Logic.I|reflexivity].
  - steps H. destruct ((a <? 576) || (65535 <? a)) eqn:C; [dead|]. repeat prim.
    eapply (S (PMtu a)); [reflexivity|cbn; lia|]. rewrite N.mod_small by lia. reflexivity.
  - apply remote_sound in H. destruct H as (st & r & T & F & ->). exact (S st r T F eq_refl).
Qed.

Lemma block_end_inv ts c g p t s' : yields peek (Pst ts c g p) t s' -> at_end t = true -> ended ts /\ s' = Pst ts c g p.
Proof. intros H A. apply peek_inv in H. destruct H as (r & -> & -> & _). split; [exact A|reflexivity]. Qed.

Lemma peer_block_sound E d rd cwd : peer_reader E d rd -> forall fuel ts c g q u s', (g < List.length (c_groups c))%nat -> pc_group q = g ->
  yields (peer_conf_block E fuel rd cwd) (Pst ts c g (Some q)) u s' ->
  exists body ps r, ts = map tok_of (peer_text body) ++ r /\ peer_means E d cwd body ps /\ s' = Pst r c g (Some (app_psets E ps q)) /\ ended r.
Proof.
  intros RD. induction fuel as [|f IH]; intros ts c g q u s' G Q H; [discriminate H|]. cbn [peer_conf_block] in H.
  step H. destruct (at_end a) eqn:A.
  - destruct (block_end_inv _ _ _ _ _ _ H0 A) as [N ->]. apply ret_inv in H. destruct H as [_ ->].
    exists [], [], ts. split; [reflexivity|]. split; [constructor|]. split; [reflexivity|exact N].
  - apply peek_inv in H0. destruct H0 as (r & -> & -> & _). next H. step H.
    destruct (peer_stmt_sound E d rd cwd _ _ c _ q _ _ RD G eq_refl H0) as (st & ps & r' & T & M & ->).
    destruct (IH _ _ _ _ _ _ G (app_psets_group E ps q) H) as (body & ps' & r2 & -> & M' & -> & N).
    exists (st :: body), (ps ++ ps'), r2. split; [|split; [apply M; exact M'|split; [|exact N]]].
    + etransitivity; [exact T|]. cbn [peer_text flat_map]. unfold peer_text. rewrite map_app, <- app_assoc. reflexivity.
    + rewrite app_psets_app. reflexivity.
Qed.

Lemma map_hd_tl (l : list lexeme) r : l <> [] -> map tok_of l ++ r = tok_of (hd semi l) :: map tok_of (tl l) ++ r.
Proof. destruct l; [congruence|reflexivity]. Qed.
Lemma psetting_text_ne s : psetting_text s <> [].
Proof. unfold psetting_text. destruct s; discriminate. Qed.
Lemma psetting_first s : exists k, tok_of (hd semi (psetting_text s)) = TKey k.
Proof. destruct s; unfold psetting_text; cbn [app hd]; autorewrite with tk; eexists; reflexivity. Qed.

Lemma peer_stmt_ok E d rd cwd st body ps0 r c g q : peer_reader E d rd -> (g < List.length (c_groups c))%nat -> pc_group q = g ->
  peer_means E d cwd (st :: body) ps0 ->
  exists k ts ps ps', map tok_of (pstmt_text st) = TKey k :: ts /\ ps0 = ps ++ ps' /\ peer_means E d cwd body ps' /\
    yields (peer_stmt E rd cwd (TKey k)) (Pst (ts ++ r) c g (Some q)) tt (Pst r c g (Some (app_psets E ps q))).
Proof.
  intros RD G Q M. inversion M as [|? ? s ? ps F M' |d' ? f dir inner pi ? ps FI MI M']; subst.
  - destruct (psetting_first s) as [k K]. exists k, (map tok_of (tl (psetting_text s))), [s], ps.
    split; [cbn [pstmt_text]; rewrite <- K, <- (app_nil_r (map tok_of (psetting_text s))), map_hd_tl by apply psetting_text_ne; rewrite app_nil_r; reflexivity|].
    split; [reflexivity|]. split; [exact M'|]. rewrite <- K. apply psetting_ok. exact F.
  - exists Kinclude, [TStr f; TChar 59], pi, ps. split; [reflexivity|]. split; [reflexivity|]. split; [exact M'|].
    cbn [peer_stmt app]. go. eapply bnd_intro; [apply call_ok|].
    + apply (RD cwd f (pc_group q) q c c (Some (app_psets E pi q)) G). rewrite set_group_same. exists d', dir, inner, pi. repeat split; assumption.
    + go.
Qed.

Lemma peer_block_ok E d rd cwd : peer_reader E d rd -> forall body fuel ps r c g q, (g < List.length (c_groups c))%nat -> pc_group q = g ->
  peer_means E d cwd body ps -> ended r -> (List.length (peer_text body) < fuel)%nat ->
  yields (peer_conf_block E fuel rd cwd) (Pst (map tok_of (peer_text body) ++ r) c g (Some q)) tt (Pst r c g (Some (app_psets E ps q))).
Proof.
  intros RD. induction body as [|st body IH]; intros fuel ps r c g q G Q M N L.
  - inversion M; subst. destruct fuel as [|f]; [cbn in L; lia|]. cbn [peer_text flat_map map app peer_conf_block]. destruct r as [|t r]; [destruct N|].
    cbn [ended] in N. eapply bnd_intro; [apply peek_ok; intros e ->; discriminate N|]. cbv beta. rewrite N. apply ret_ok.
  - destruct fuel as [|f]; [lia|]. cbn [peer_text flat_map peer_conf_block] in *. rewrite map_app, <- app_assoc.
    destruct (peer_stmt_ok E d rd cwd st body ps (map tok_of (peer_text body) ++ r) c g q RD G Q M) as (k & ts & p1 & p2 & T & -> & M' & Y).
    assert (T' : List.length (pstmt_text st) = S (List.length ts)) by (rewrite <- (map_length tok_of), T; reflexivity).
    rewrite T. cbn [app]. eapply bnd_intro; [apply peek_ok; intros; discriminate|]. cbv beta iota delta [at_end].
    eapply bnd_intro; [apply next_ok; intros; discriminate|]. cbv beta. eapply bnd_intro; [exact Y|].
    rewrite app_psets_app. apply IH; [exact G|rewrite app_psets_group; exact Q|exact M'|exact N|].
    rewrite app_length in L. unfold peer_text. lia.
Qed.
