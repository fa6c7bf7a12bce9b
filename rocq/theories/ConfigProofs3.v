(** The settings outside of the groups, and those of a peer. *)
From Verif Require Import Base BufferModel MethodModel AddrModel LexModel LexSpec HexSpec ConfigModel ConfigSpec ConfigProofs ConfigProofs2.
From Verif Require HexModel HexProofs.
From Coq Require Import String.
Local Open Scope N_scope.

(** * Interface names *)

Lemma strchr_none s c : strchr s c = None <-> ~ In c s.
Proof.
  induction s as [|x s IH]; cbn [strchr In]; [split; [intros _ []|reflexivity]|].
  destruct (N.eqb_spec x c) as [->|N]; [split; [discriminate|intros H; exfalso; apply H; left; reflexivity]|].
  rewrite IH. split; intros H; [intros [->|I]; [apply N; reflexivity|exact (H I)]|intros I; apply H; right; exact I].
Qed.
Lemma strchr_some s c r : strchr s c = Some r -> exists a t, s = a ++ c :: t /\ r = c :: t /\ ~ In c a.
Proof.
  induction s as [|x s IH]; cbn [strchr]; [discriminate|].
  destruct (N.eqb_spec x c) as [->|N].
  - intros [= <-]. exists [], s. repeat split. intros [].
  - intros H. destruct (IH H) as (a & t & -> & -> & A). exists (x :: a), t. repeat split.
    intros [->|I]; [apply N; reflexivity|exact (A I)].
Qed.
Lemma strchr_app a c t : ~ In c a -> strchr (a ++ c :: t) c = Some (c :: t).
Proof.
  induction a as [|x a IH]; cbn [strchr app In]; intros H; [rewrite N.eqb_refl; reflexivity|].
  destruct (N.eqb_spec x c) as [->|N]; [exfalso; apply H; left; reflexivity|apply IH; intros I; apply H; right; exact I].
Qed.
Lemma ifname_iff s : ifname_ok s = true <-> ifname_fine s.
Proof.
  unfold ifname_ok, ifname_fine. destruct (strchr s 47) as [z|] eqn:S.
  - split; [discriminate|]. intros [H _]. apply strchr_none in H. congruence.
  - apply strchr_none in S. destruct (strchr s 37) as [z|] eqn:P.
    + apply strchr_some in P. destruct P as (a & t & -> & -> & A). cbn [skipn nth].
      assert (I : In 37 (a ++ 37 :: t)) by (apply in_or_app; right; left; reflexivity).
      destruct (strchr t 37) as [z|] eqn:P2.
      * split; [discriminate|]. intros [_ [H|(a' & x & b & E & X & A' & B')]]; [contradiction|]. exfalso.
        apply strchr_some in P2. destruct P2 as (u & v & -> & _ & _).
        assert (Q : strchr (a ++ 37 :: u ++ 37 :: v) 37 = strchr (a' ++ [37; x] ++ b) 37) by exact (f_equal (fun l => strchr l 37) E).
        cbn [app] in Q. rewrite !strchr_app in Q by assumption. injection Q as Q.
        destruct u as [|y u]; cbn [app] in Q; injection Q as Q1 Q2.
        -- subst x. destruct X; discriminate.
        -- apply B'. rewrite <- Q2. apply in_or_app. right. left. reflexivity.
      * apply strchr_none in P2. destruct t as [|x b]; cbn [nth].
        -- split; [discriminate|]. intros [_ [H|(a' & x & b & E & _ & A' & B')]]; [contradiction|]. exfalso.
           assert (Q : strchr (a ++ [37]) 37 = strchr (a' ++ [37; x] ++ b) 37) by exact (f_equal (fun l => strchr l 37) E).
           cbn [app] in Q. rewrite !strchr_app in Q by assumption. discriminate Q.
        -- split.
           ++ intros H. split; [exact S|]. right. exists a, x, b. split; [reflexivity|]. split; [|split; [exact A|intros B; apply P2; right; exact B]].
              destruct (N.eqb_spec x 110); [left; assumption|]. destruct (N.eqb_spec x 107); [right; assumption|]. discriminate H.
           ++ intros [_ [H|(a' & x' & b' & E & X & A' & B')]]; [contradiction|].
              assert (Q : strchr (a ++ 37 :: x :: b) 37 = strchr (a' ++ [37; x'] ++ b') 37) by exact (f_equal (fun l => strchr l 37) E).
              cbn [app] in Q. rewrite !strchr_app in Q by assumption. injection Q as -> _. destruct X as [-> | ->]; reflexivity.
    + apply strchr_none in P. split; [intros _; split; [exact S|left; exact P]|reflexivity].
Qed.

(** * Settings *)

Definition app_bind (c : conf) (b : bind_addr) : conf :=
  let i := List.length (c_binds c) in
  let c := set_c_binds (b :: c_binds c) c in
  let c := if fits4 b && (ba_def4 b || match c_default4 c with None => true | Some _ => false end) then set_c_default4 (Some i) c else c in
  if fits6 b && (ba_def6 b || match c_default6 c with None => true | Some _ => false end) then set_c_default6 (Some i) c else c.
Lemma add_bind_is h dev f4 f6 dyn c : add_bind h dev f4 f6 dyn c = app_bind c (Bind (simplify_host h) dev f4 f6 dyn).
Proof.
  unfold add_bind, app_bind, fits4, fits6. cbn [ba_addr ba_def4 ba_def6].
  destruct (simplify_host h) as [p|[]]; reflexivity.
Qed.

Definition app_set (E : env) (dir : bytes) (s : setting) (c : conf) : conf :=
  match s with
  | SUser s => set_c_user (Some s) c
  | SOsGroup s => set_c_group (Some s) c
  | SDrop x => set_c_caps x c
  | SSecure _ | SPmtu _ | SProtocol _ => c
  | SCipher a b => set_c_ciphers ((a, b) :: c_ciphers c) c
  | SMac a b => set_c_macs ((a, b) :: c_macs c) c
  | SLogLevel _ | SLogStderr _ => let st := log_step (c_stderr c, c_syslog c) s in set_c_stderr (fst st) (set_c_syslog (snd st) c)
  | SLogSyslog i l => set_c_syslog (Some (or_default l)) (match i with Some i => set_c_ident i c | None => c end)
  | SHideIp b => set_c_hide_ip b c
  | SHideMac b => set_c_hide_mac b c
  | SIface s => set_c_ifname (Some s) c
  | SBind h p dev d => fold_left app_bind (binds_of E h p dev d) c
  | SBindScoped a i p d => fold_left app_bind (binds_of E (H6 a) p (Some i) d) c
  | SMark n => set_c_mark (n mod 2 ^ 32) c
  | SMtu n => set_c_mtu n c
  | SMode m => set_c_mode m c
  | SPersist b => set_c_persist b c
  | SOffload b => if b_offload (e_build E) then set_c_offload b c else c
  | SSecret s => set_c_secret (Some s) c
  | SPreUp s => set_c_pre_up (Some (Command s dir true)) c
  | SPostDown s => set_c_post_down (Some (Command s dir true)) c
  | SStatus s => set_c_status (Some s) c
  | SForward b => set_c_forward b c
  end.

Lemma htons_is n : n <= 65535 -> htons n = port_bytes n.
Proof. intros H. unfold htons, port_bytes. rewrite (N.mod_small (n / 256)); [reflexivity|]. apply N.div_lt_upper_bound; lia. Qed.

Definition host_of (h : bhost) (p : bytes) : bind_host :=
  match h with H4 a => BAddr (AInet a p) | H6 a => BAddr (AInet6 a p (repeat 0 4) (repeat 0 4)) | HAny => BAny p end.
Lemma v6_ll_of h p : is_v6_ll (host_of h p) = match h with H6 a => is_linklocal a | _ => false end.
Proof. destruct h; reflexivity. Qed.
Definition refused (E : env) (h : bhost) (dev : option bytes) : bool :=
  negb (b_bindtodevice (e_build E)) && match dev with Some _ => true | None => false end && negb (match h with H6 a => is_linklocal a | _ => false end).
Lemma refused_iff E h dev : refused E h dev = false <-> device_fine E h dev.
Proof.
  unfold refused, device_fine. destruct dev, (b_bindtodevice (e_build E)), h as [a|a|]; cbn; try destruct (is_linklocal a); cbn;
    (split; [intros H; try discriminate; auto|intros [H|[H|H]]; try discriminate; try contradiction; reflexivity]).
Qed.
Lemma hosts_conf E h p dev f4 f6 dyn c :
  fold_left app_bind (map (fun a => Bind a dev f4 f6 dyn) (hosts E h p)) c =
  match h with
  | HAny => if b_multiaf (e_build E) then add_bind (BAny p) dev f4 f6 dyn c
            else add_bind (BAddr (AInet6 (repeat 0 16) p (repeat 0 4) (repeat 0 4))) dev f4 f6 dyn (add_bind (BAddr (AInet (repeat 0 4) p)) dev f4 f6 dyn c)
  | _ => add_bind (host_of h p) dev f4 f6 dyn c
  end.
Proof.
  destruct h as [a|a|]; unfold hosts; [| |destruct (b_multiaf (e_build E))]; cbn [map fold_left]; rewrite ?add_bind_is; reflexivity.
Qed.
Lemma bind_address_eq E h p dev f4 f6 dyn ts c g q :
  bind_address E (host_of h p) dev f4 f6 dyn (Pst ts c g q) =
  if refused E h dev then Fatal else Ok (Some (tt, Pst ts (fold_left app_bind (map (fun a => Bind a dev f4 f6 dyn) (hosts E h p)) c) g q)).
Proof.
  rewrite hosts_conf. unfold bind_address, refused. rewrite v6_ll_of.
  destruct (negb (b_bindtodevice (e_build E)) && _ && _); [reflexivity|].
  destruct h as [a|a|]; cbn [host_of]; [| |destruct (b_multiaf (e_build E))]; reflexivity.
Qed.
Lemma handle_bind_eq E h op dev od ts c g q : bind_port_fine op ->
  handle_bind_address E (host_of h) (option_map snd op) dev (for4 od, for6 od) (Pst ts c g q) =
  if refused E h dev then Fatal else Ok (Some (tt, Pst ts (fold_left app_bind (binds_of E h op dev od) c) g q)).
Proof.
  intros B. unfold handle_bind_address, binds_of. destruct op as [[x n]|]; cbn [option_map snd bind_port_fine] in *.
  - rewrite htons_is by exact B. apply bind_address_eq.
  - apply bind_address_eq.
Qed.

(** One statement has been read and done *)
Definition did (E : env) (cwd : bytes) (ts : list tok) (c : conf) (g : nat) (p : option peer_conf) (s' : pst) : Prop :=
  exists st r, ts = map tok_of (setting_text st) ++ r /\ setting_fine E st /\ s' = Pst r (app_set E cwd st c) g p.

Ltac finish x := exists x; eexists; split; [|split; [|reflexivity]].

Lemma bind_stmt_sound E cwd ts c g p u s' : yields (bind_stmt E ;; semicolon) (Pst ts c g p) u s' -> did E cwd (TKey Kbind :: ts) c g p s'.
Proof.
  intros H. step H. unfold bind_stmt in H0. next H0.
  assert (G : forall h : bhost, a0 = tok_of (match h with H4 a => LAddr4 a | H6 a => LAddr6 a | HAny => K "any" end) ->
    yields (let! p <- maybe_bind_port; let! i <- maybe_bind_interface; let! d <- maybe_bind_default; handle_bind_address E (host_of h) p i d)
      (Pst x c g p) a s -> did E cwd (TKey Kbind :: a0 :: x) c g p s').
  { intros h -> K. step K. apply maybe_bind_port_inv in H1. destruct H1 as (op & r & -> & -> & P & ->).
    step K. apply maybe_bind_interface_inv in H1. destruct H1 as (r1 & -> & ->).
    step K. apply maybe_bind_default_inv in H1. destruct H1 as (od & r2 & -> & -> & ->).
    unfold yields in K. rewrite handle_bind_eq in K by exact P. destruct (refused E h a0) eqn:R; [discriminate|].
    apply refused_iff in R. injection K as <- <-. repeat prim.
    finish (SBind h op a0 od); [|split; assumption].
    unfold setting_text. rewrite !map_app, <- !app_assoc. reflexivity. }
  destruct a0 as [| | | |a6|a6 i|a4| |k|]; try dead.
  - exact (G (H6 a6) eq_refl H0).
  - clear G. step H0. apply maybe_bind_port_inv in H1. destruct H1 as (op & r & -> & -> & P & ->).
    step H0. apply maybe_bind_default_inv in H1. destruct H1 as (od & r2 & -> & -> & ->).
    unfold yields in H0. rewrite (handle_bind_eq E (H6 a6)) in H0 by exact P. destruct (refused E (H6 a6) (Some i)) eqn:R; [discriminate|].
    apply refused_iff in R. injection H0 as <- <-. repeat prim.
    finish (SBindScoped a6 i op od); [|split; assumption].
    unfold setting_text. rewrite !map_app, <- !app_assoc. reflexivity.
  - exact (G (H4 a4) eq_refl H0).
  - destruct k; try dead. exact (G HAny eq_refl H0).
Qed.

Lemma log_stmt_sound E cwd ts c g p u s' : yields (log_stmt ;; semicolon) (Pst ts c g p) u s' -> did E cwd (TKey Klog :: ts) c g p s'.
Proof.
  intros H. step H. unfold log_stmt in H0. next H0. destruct a0; try dead. destruct k; try dead.
  - step H0. apply log_level_inv in H1. destruct H1 as (r & -> & ->). steps H0. repeat prim.
    exists (SLogLevel a0). eexists. split; [reflexivity|]. split; [exact Logic.I|].
    f_equal. destruct c as [? ? ? ? ? err sys]. unfold app_set, log_step, set_c_stderr, set_c_syslog; cbn. destruct err, sys; reflexivity.
  - next H0. destruct a0; try dead. destruct k; try dead.
    + step H0. apply maybe_log_level_inv in H1. destruct H1 as (ol & r & -> & -> & ->). repeat prim.
      exists (SLogStderr ol). eexists. split; [unfold setting_text; rewrite !map_app, <- !app_assoc; reflexivity|]. split; [exact Logic.I|].
      destruct ol; reflexivity.
    + step H0. apply opt_inv in H1. destruct a0.
      * destruct H1 as (r & -> & ->). step H0. repeat prim. step H0. apply maybe_log_level_inv in H1. destruct H1 as (ol & r & -> & -> & ->).
        steps H0. repeat prim. finish (SLogSyslog (Some a0) ol); [|exact Logic.I]. unfold setting_text. rewrite !map_app, <- !app_assoc. reflexivity.
      * subst. step H0. apply maybe_log_level_inv in H1. destruct H1 as (ol & r & -> & -> & ->). repeat prim.
        finish (SLogSyslog None ol); [|exact Logic.I]. unfold setting_text. rewrite !map_app, <- !app_assoc. reflexivity.
Qed.

Lemma drop_stmt_sound E cwd ts c g p u s' : yields (key Kcapabilities ;; drop_stmt ;; semicolon) (Pst ts c g p) u s' -> did E cwd (TKey Kdrop :: ts) c g p s'.
Proof.
  intros H. step H. repeat prim. step H. unfold drop_stmt in H0. step H0. apply peek_inv in H1. destruct H1 as (r & -> & -> & _).
  assert (D : yields (let! b <- boolean; modify (set_c_caps (if b : bool then CapsOn else CapsOff))) (Pst (a1 :: r) c g p) a0 s ->
    did E cwd (TKey Kdrop :: TKey Kcapabilities :: a1 :: r) c g p s').
  { intros B. step B. apply boolean_inv in H1. destruct H1 as (r' & -> & ->). repeat prim.
    finish (SDrop (if a2 : bool then CapsOn else CapsOff)); [|exact Logic.I]. destruct a2; reflexivity. }
  destruct a1; try exact (D H0). destruct k; try exact (D H0); clear D; next H0; repeat prim.
  - finish (SDrop CapsEarly); [reflexivity|exact Logic.I].
  - finish (SDrop CapsForce); [reflexivity|exact Logic.I].
Qed.

Lemma global_sound E cwd t ts c g p u s' : yields (global_stmt E cwd t) (Pst ts c g p) u s' -> did E cwd (t :: ts) c g p s'.
Proof.
  intros H. destruct t; try dead. destruct k; try dead; cbn [global_stmt] in H.
  - exact (bind_stmt_sound E cwd _ _ _ _ _ _ H).
  - steps H. destruct (e_cipher E a a1) eqn:C; [|dead]. steps H. repeat prim. finish (SCipher a a1); [reflexivity|exact C].
  - exact (drop_stmt_sound E cwd _ _ _ _ _ _ H).
  - step H. apply boolean_inv in H0. destruct H0 as (r & -> & ->). steps H. finish (SForward a); [reflexivity|exact Logic.I].
  - steps H. destruct (b_user (e_build E)) eqn:C; [|dead]. steps H. repeat prim. finish (SOsGroup a); [reflexivity|exact C].
  - next H. destruct a; try dead. destruct k; try dead.
    + step H. repeat prim. step H. apply boolean_inv in H0. destruct H0 as (r & -> & ->). steps H. finish (SHideIp a0); [reflexivity|exact Logic.I].
    + step H. repeat prim. step H. apply boolean_inv in H0. destruct H0 as (r & -> & ->). steps H. finish (SHideMac a0); [reflexivity|exact Logic.I].
  - steps H. destruct (ifname_ok a) eqn:C; [|dead]. apply ifname_iff in C. repeat prim. finish (SIface a); [reflexivity|exact C].
  - exact (log_stmt_sound E cwd _ _ _ _ _ _ H).
  - steps H. destruct (e_mac E a a1) eqn:C; [|dead]. repeat prim. finish (SMac a a1); [reflexivity|exact C].
  - next H. step H. destruct a; try dead. destruct k; try dead; repeat prim.
    + finish (SMode Multitap); [reflexivity|exact Logic.I].
    + finish (SMode Tap); [reflexivity|exact Logic.I].
    + finish (SMode Tun); [reflexivity|exact Logic.I].
  - steps H. destruct ((a <? 576) || (65535 <? a)) eqn:C; [dead|]. repeat prim. rewrite N.mod_small by lia.
    finish (SMtu a); [reflexivity|cbn; lia].
  - step H. repeat prim. step H. apply boolean_inv in H0. destruct H0 as (r & -> & ->). step H.
    destruct (b_offload (e_build E)) eqn:C; [|destruct a0; [dead|]]; repeat prim; exists (SOffload a0) || exists (SOffload false); eexists;
      (split; [reflexivity|]); (split; [intros ?; (assumption || discriminate)|]); cbn [app_set]; rewrite C; reflexivity.
  - steps H. destruct (b_mark (e_build E)) eqn:C; [|dead]. repeat prim. finish (SMark a0); [reflexivity|exact C].
  - step H. repeat prim. step H. apply boolean_inv in H0. destruct H0 as (r & -> & ->). steps H. finish (SPersist a0); [reflexivity|exact Logic.I].
  - step H. apply autobool_inv in H0. destruct H0 as (b & r & -> & ->). repeat prim. finish (SPmtu b); [destruct b; reflexivity|exact Logic.I].
  - steps H. destruct (bytes_eqb a (e_protocol E)) eqn:C; [|dead]. apply word_eqb in C. repeat prim. finish (SProtocol (e_protocol E)); [reflexivity|reflexivity].
  - steps H. finish (SSecret a); [reflexivity|exact Logic.I].
  - step H. repeat prim. step H. apply boolean_inv in H0. destruct H0 as (r & -> & ->). repeat prim. finish (SSecure a0); [reflexivity|exact Logic.I].
  - steps H. destruct (b_status (e_build E)) eqn:C; [|dead]. repeat prim. finish (SStatus a0); [reflexivity|exact C].
  - steps H. destruct (b_user (e_build E)) eqn:C; [|dead]. repeat prim. finish (SUser a); [reflexivity|exact C].
Qed.
