(** Command lines. *)
From Verif Require Import Base BufferModel MethodModel AddrModel LexModel LexSpec HexSpec ConfigModel ConfigSpec ConfigProofs ConfigProofs2 ConfigProofs3
  ConfigProofs5 ConfigProofs6 ConfigProofs8 ConfigProofs9 ConfigProofs10 ConfigProofs12 OptionsModel OptionsSpec OptionsProofs OptionsProofs2.
From Verif Require HandshakeProofs2 NameModel.
From Coq Require Import String.
Local Open Scope N_scope.

(** * What effects add up to *)

Definition ident_of (x : oeffect) : option bytes := match x with OIdent s => Some s | OE (ESet _ (SLogSyslog i _)) => i | _ => None end.
Definition or_ident (x : oeffect) (i : bytes) : bytes := match ident_of x with Some j => j | None => i end.
Lemma bind_ident b i c : app_bind (set_c_ident i c) b = set_c_ident i (app_bind c b).
Proof. unfold app_bind. cbn [c_binds c_default4 c_default6 set_c_ident]. destruct (fits4 b && _), (fits6 b && _); reflexivity. Qed.
Lemma binds_ident l i : forall c, fold_left app_bind l (set_c_ident i c) = set_c_ident i (fold_left app_bind l c).
Proof. induction l as [|b l IH]; intros c; [reflexivity|]. cbn [fold_left]. rewrite bind_ident. apply IH. Qed.
Lemma set_ident E dir s i c : app_set E dir s (set_c_ident i c) = set_c_ident (or_ident (OE (ESet dir s)) i) (app_set E dir s c).
Proof.
  destruct s; try reflexivity.
  - cbn [app_set]. destruct ident; reflexivity.
  - apply binds_ident.
  - apply binds_ident.
  - cbn [app_set]. destruct (b_offload _); reflexivity.
Qed.
Lemma app_ident E e i c : app E e (set_c_ident i c) = option_map (set_c_ident (or_ident (OE e) i)) (app E e c).
Proof.
  destruct e; try reflexivity.
  - cbn [app option_map]. rewrite set_ident. reflexivity.
  - cbn [app]. unfold app_peer. destruct (pc_key _) as [k|]; [|reflexivity]. cbn [c_peers set_c_ident]. destruct (existsb _ (c_peers c)); reflexivity.
Qed.
Lemma all_ident E es X : forall i c, option_map (set_c_ident X) (app_all E es (set_c_ident i c)) = option_map (set_c_ident X) (app_all E es c).
Proof.
  induction es as [|e es IH]; intros i c; [reflexivity|]. cbn [app_all]. rewrite app_ident. destruct (app E e c) as [c1|]; [|reflexivity]. cbn [option_map]. apply IH.
Qed.
Lemma bind_c_ident b c : c_ident (app_bind c b) = c_ident c.
Proof. unfold app_bind. destruct (fits4 b && _), (fits6 b && _); reflexivity. Qed.
Lemma binds_c_ident l : forall c, c_ident (fold_left app_bind l c) = c_ident c.
Proof. induction l as [|b l IH]; intros c; [reflexivity|]. cbn [fold_left]. rewrite IH. apply bind_c_ident. Qed.
Lemma app_c_ident E e c c' : app E e c = Some c' -> c_ident c' = or_ident (OE e) (c_ident c).
Proof.
  destruct e; try (intros [= <-]; reflexivity).
  - intros [= <-]. destruct s; try reflexivity.
    + cbn [app_set]. destruct ident; reflexivity.
    + apply binds_c_ident.
    + apply binds_c_ident.
    + cbn [app_set]. destruct (b_offload _); reflexivity.
  - cbn [app]. unfold app_peer. destruct (pc_key _) as [k|]; [|discriminate]. destruct (existsb _ _); [discriminate|]. intros [= <-]. reflexivity.
Qed.

Definition totals (oes : list oeffect) (o : ost) (c : conf) : ost :=
  Ost (set_c_ident (last_of ident_of (c_ident (o_conf o)) oes) c)
    (o_stdin o || reads_stdin oes)
    (o_daemon o || existsb (fun o => match o with ODaemon => true | _ => false end) oes)
    (last_of (fun o => match o with OPid f => Some (Some f) | _ => None end) (o_pid o) oes)
    (o_verify o || existsb (fun o => match o with OVerify => true | _ => false end) oes)
    (last_of (fun o => match o with OGenerate => Some true | OShow => Some false | _ => None end) (o_generate o) oes)
    (last_of (fun o => match o with OGenerate => Some false | OShow => Some true | _ => None end) (o_show o) oes)
    (o_machine o || existsb (fun o => match o with OMachine => true | _ => false end) oes).
Lemma app_os_is E oes : forall o, app_os E oes o = option_map (totals oes o) (app_all E (effects oes) (o_conf o)).
Proof.
  induction oes as [|x oes IH]; intros o.
  - cbn. unfold totals. destruct o as [[] ]. cbn. rewrite !orb_false_r. reflexivity.
  - cbn [app_os]. destruct x; cbn [app_o]; try (rewrite IH; match goal with |- context [effects (?x :: oes)] => change (effects (x :: oes)) with (effects oes) end; cbn [o_conf];
      destruct (app_all E (effects oes) (o_conf o)); [|reflexivity]; cbn [option_map]; unfold totals; cbn; rewrite ?orb_true_r; reflexivity).
    + change (effects (OE e :: oes)) with (e :: effects oes). cbn [app_all]. destruct (app E e (o_conf o)) as [c|] eqn:A; [|reflexivity]. cbn [option_map]. rewrite IH. cbn [o_conf set_conf].
      destruct (app_all E (effects oes) c); [|reflexivity]. cbn [option_map]. unfold totals. cbn [o_conf o_stdin o_daemon o_pid o_verify o_generate o_show o_machine set_conf].
      rewrite (app_c_ident E e _ _ A). reflexivity.
    + rewrite IH. change (effects (OIdent s :: oes)) with (effects oes). cbn [o_conf set_conf].
      pose proof (all_ident E (effects oes) (last_of ident_of s oes) s (o_conf o)) as H.
      destruct (app_all E (effects oes) (set_c_ident s (o_conf o))) as [c1|], (app_all E (effects oes) (o_conf o)) as [c2|]; try discriminate H; [|reflexivity].
      cbn [option_map] in H |- *. assert (Q : forall a b : conf, Some a = Some b -> a = b) by (intros a b X; congruence). apply Q in H. unfold totals. cbn [o_conf o_stdin o_daemon o_pid o_verify o_generate o_show o_machine set_conf set_c_ident c_ident].
      f_equal. f_equal. exact H.
Qed.

(** * One option *)

Lemma app_one E x o o' : app_os E [x] o = Some o' <-> app_o E x o = Some o'.
Proof. cbn. destruct (app_o E x o); split; congruence. Qed.
Ltac here I := repeat (destruct I as [I|I]; [subst; try reflexivity|]); try destruct I.
Ltac found COND := unfold lookup, table; rewrite ?COND; reflexivity.

Section One.
Context (E : env) (B : obuild) (cwd : bytes).

Definition flag_done (ws : list bytes) (oes : list oeffect) (o : ost) : Prop :=
  exists a f, ws = [a] /\ lookup E B a = Some (inl f) /\ do_flag f o = app_os E oes o.
Definition arg_done (ws : list bytes) (oes : list oeffect) (o : ost) : Prop :=
  exists a v k, ws = [a; v] /\ lookup E B a = Some (inr k) /\ forall o', app_os E oes o = Some o' -> do_arg E cwd k v o = Ok o'.
Ltac flag_case f := left; eexists _, f; split; [reflexivity|]; split; [|reflexivity].
Ltac arg_case k := right; eexists _, _, k; split; [reflexivity|]; split; [|intros o' A].
Ltac entry T C :=
  pose proof (f_equal snd T) as C; pose proof (f_equal (fun x => snd (fst x)) T) as T2; apply (f_equal (fun x => fst (fst x))) in T; cbn [fst snd] in C, T, T2;
  try discriminate T2; injection T2 as <-; lazymatch type of T with _ = ?x => subst x end.
Ltac names H := cbn [In] in H; repeat (destruct H as [<-|H]); [| |destruct H].

Lemma option_done o ws oes : wfc (o_conf o) -> option_means E B cwd (o_stdin o) (List.length (c_groups (o_conf o))) ws oes -> flag_done ws oes o \/ arg_done ws oes o.
Proof.
  intros W M. destruct M as [ a I | f | s C | a f dir body es I NE MI M | a dir body es I U MI M | a I U | f dir inner ps F PM | d abs CD | d CD | s C | s C | l C | l C | s C | C | C
    | a m I C | a s I C F | a s I C F | a t k I C T R | a t h p I C BA | a I C | s C | C | s C | s C | s C | s C | s C | s C | s C | s C D | | | | ].
  - flag_case FDaemon. destruct I as [<-|[<-|[]]]; reflexivity.
  - arg_case APid; [reflexivity|]. cbn in A. injection A as <-. reflexivity.
  - arg_case AStatus; [unfold lookup, table; rewrite C; reflexivity|]. cbn in A. injection A as <-. reflexivity.
  - arg_case AConfig; [destruct I as [<-|[<-|[]]]; reflexivity|]. apply config_iff; [exact W|]. left. split; [exact NE|]. exists dir, body, es. split; [exact MI|]. split; [exact M|exact A].
  - arg_case AConfig; [destruct I as [<-|[<-|[]]]; reflexivity|]. apply config_iff; [exact W|]. right. left. split; [reflexivity|]. split; [exact U|]. exists dir, body, es. split; [exact MI|]. split; [exact M|exact A].
  - arg_case AConfig; [destruct I as [<-|[<-|[]]]; reflexivity|]. apply config_iff; [exact W|]. right. right. split; [reflexivity|]. split; [exact U|exact A].
  - arg_case APeer; [reflexivity|]. apply app_one in A. cbn [app_o] in A. destruct (app E _ (o_conf o)) as [c|] eqn:P; [|discriminate]. injection A as <-.
    apply conf_only. exists c. split; [|reflexivity]. apply peer_iff; [exact W|]. exists dir, inner, ps. split; [exact F|]. split; [exact PM|exact P].
  - arg_case APeerDir; [reflexivity|]. cbn in A. injection A as <-. apply conf_only. eexists. split; [|reflexivity]. rewrite dir_is, CD. reflexivity.
  - arg_case APeerDir; [reflexivity|]. cbn in A. injection A as <-. apply conf_only. exists (o_conf o). split; [|rewrite set_conf_same; reflexivity]. rewrite dir_is, CD. reflexivity.
  - arg_case AUser; [unfold lookup, table; rewrite C; reflexivity|]. cbn in A. injection A as <-. reflexivity.
  - arg_case AGroup; [unfold lookup, table; rewrite C; reflexivity|]. cbn in A. injection A as <-. reflexivity.
  - arg_case ALog; [unfold lookup, table; rewrite C; reflexivity|]. cbn [app_os app_o app option_map] in A. rewrite stderr_is in A. injection A as <-.
    apply conf_only. eexists. split; [|reflexivity]. rewrite (proj2 (level_iff _ l) eq_refl). reflexivity.
  - arg_case ASyslog; [unfold lookup, table; rewrite C; reflexivity|]. cbn [app_os app_o app option_map] in A. rewrite syslog_is in A. injection A as <-.
    apply conf_only. eexists. split; [|reflexivity]. rewrite (proj2 (level_iff _ l) eq_refl). reflexivity.
  - arg_case AIdent; [unfold lookup, table; rewrite C; reflexivity|]. cbn in A. injection A as <-. reflexivity.
  - flag_case FHideIp. unfold lookup, table; rewrite C; reflexivity.
  - flag_case FHideMac. unfold lookup, table; rewrite C; reflexivity.
  - arg_case AMode; [destruct I as [<-|[<-|[]]]; unfold lookup, table; rewrite C; reflexivity|]. cbn in A. injection A as <-.
    apply conf_only. eexists. split; [|reflexivity]. apply mode_iff. exists m. split; reflexivity.
  - arg_case AIface; [destruct I as [<-|[<-|[]]]; unfold lookup, table; rewrite C; reflexivity|]. cbn in A. injection A as <-.
    apply conf_only. eexists. split; [|reflexivity]. apply ifname_iff in F. rewrite F. reflexivity.
  - arg_case AIface; [destruct I as [<-|[<-|[]]]; unfold lookup, table; rewrite C; reflexivity|]. cbn in A. injection A as <-.
    apply conf_only. exists (o_conf o). split; [|rewrite set_conf_same; reflexivity]. destruct (ifname_ok s) eqn:K; [|reflexivity]. apply ifname_iff in K. contradiction.
  - arg_case AMtu; [destruct I as [<-|[<-|[]]]; unfold lookup, table; rewrite C; reflexivity|]. cbn in A. injection A as <-.
    apply conf_only. eexists. split; [|reflexivity]. apply mtu_iff. exists k. split; [exact T|]. split; [exact R|reflexivity].
  - arg_case ABind; [destruct I as [<-|[<-|[]]]; unfold lookup, table; rewrite C; reflexivity|]. apply app_one in A. cbn [app_o app option_map app_set] in A. injection A as <-.
    apply conf_only. eexists. split; [|reflexivity]. apply bind_iff. exists h, p. split; [exact BA|reflexivity].
  - arg_case AProtocol; [destruct I as [<-|[<-|[]]]; unfold lookup, table; rewrite C; reflexivity|]. cbn in A. injection A as <-.
    apply conf_only. exists (o_conf o). split; [|rewrite set_conf_same; reflexivity]. rewrite bytes_refl. reflexivity.
  - arg_case AMethod; [unfold lookup, table; rewrite C; reflexivity|]. cbn in A. injection A as <-. reflexivity.
  - flag_case FForward. unfold lookup, table; rewrite C; reflexivity.
  - arg_case APreUp; [unfold lookup, table; rewrite C; reflexivity|]. cbn in A. injection A as <-. reflexivity.
  - arg_case AUp; [unfold lookup, table; rewrite C; reflexivity|]. cbn in A. injection A as <-. reflexivity.
  - arg_case ADown; [unfold lookup, table; rewrite C; reflexivity|]. cbn in A. injection A as <-. reflexivity.
  - arg_case APostDown; [unfold lookup, table; rewrite C; reflexivity|]. cbn in A. injection A as <-. reflexivity.
  - arg_case AConnect; [unfold lookup, table; rewrite C; reflexivity|]. cbn in A. injection A as <-. reflexivity.
  - arg_case AEstablish; [unfold lookup, table; rewrite C; reflexivity|]. cbn in A. injection A as <-. reflexivity.
  - arg_case ADisestablish; [unfold lookup, table; rewrite C; reflexivity|]. cbn in A. injection A as <-. reflexivity.
  - arg_case AVerify; [unfold lookup, table; rewrite C, D; reflexivity|]. cbn in A. injection A as <-. reflexivity.
  - flag_case FVerify. reflexivity.
  - flag_case FGenerate. reflexivity.
  - flag_case FShow. reflexivity.
  - flag_case FMachine. reflexivity.
Qed.

Lemma flag_sound a f o o' : lookup E B a = Some (inl f) -> do_flag f o = Some o' ->
  exists oes, option_means E B cwd (o_stdin o) (List.length (c_groups (o_conf o))) [a] oes /\ app_os E oes o = Some o'.
Proof.
  intros L D. apply lookup_some in L. destruct L as (ns & b & T & I & ->). unfold table in T.
  repeat (destruct T as [T|T]; [entry T C; cbn [do_flag] in D; try discriminate D; injection D as <- |]); try destruct T.
  - exists [ODaemon]. split; [apply om_daemon; exact I|reflexivity].
  - destruct I as [<-|[]]. exists [OE (ESet cwd (SHideIp true))]. split; [apply om_hide_ip; exact C|reflexivity].
  - destruct I as [<-|[]]. exists [OE (ESet cwd (SHideMac true))]. split; [apply om_hide_mac; exact C|reflexivity].
  - destruct I as [<-|[]]. exists [OE (ESet cwd (SForward true))]. split; [apply om_forward; exact C|reflexivity].
  - destruct I as [<-|[]]. exists [OVerify]. split; [apply om_verify_config|reflexivity].
  - destruct I as [<-|[]]. exists [OGenerate]. split; [apply om_generate|reflexivity].
  - destruct I as [<-|[]]. exists [OShow]. split; [apply om_show|reflexivity].
  - destruct I as [<-|[]]. exists [OMachine]. split; [apply om_machine|reflexivity].
Qed.
Lemma help_iff a : is_help a <-> exists f, lookup E B a = Some (inl f) /\ forall o, do_flag f o = None.
Proof.
  split.
  - intros [<-|[<-|[<-|[<-|[]]]]]; [exists FHelp|exists FHelp|exists FVersion|exists FVersion]; (split; [reflexivity|intros o; reflexivity]).
  - intros (f & L & D). specialize (D start). apply lookup_some in L. destruct L as (ns & b & T & I & ->). unfold table in T. unfold is_help. cbn [In].
    repeat (destruct T as [T|T]; [entry T C; cbn in D; try discriminate D; cbn [In] in I; tauto|]). destruct T.
Qed.
Lemma flag_none f o : do_flag f o = None -> forall o, do_flag f o = None.
Proof. destruct f; cbn; intros D o1; try discriminate D; reflexivity. Qed.

Lemma arg_sound a k v o o' : wfc (o_conf o) -> lookup E B a = Some (inr k) -> do_arg E cwd k v o = Ok o' ->
  exists oes, option_means E B cwd (o_stdin o) (List.length (c_groups (o_conf o))) [a; v] oes /\ app_os E oes o = Some o'.
Proof.
  intros W L D. apply lookup_some in L. destruct L as (ns & b & T & I & ->). unfold table in T.
  repeat (destruct T as [T|T]; [entry T C|]); try destruct T; cbn [do_arg] in D;
    try (apply conf_only in D; destruct D as (c & D & ->)).
  - destruct I as [<-|[]]. injection D as <-. exists [OPid v]. split; [apply om_pid|reflexivity].
  - destruct I as [<-|[]]. injection D as <-. exists [OE (ESet cwd (SStatus v))]. split; [apply om_status; exact C|reflexivity].
  - apply config_iff in D; [|exact W]. destruct D as [(NE & dir & body & es & MI & M & A)|[(-> & U & dir & body & es & MI & M & A)|(-> & U & A)]].
    + exists (map OE es). split; [exact (om_config E B cwd _ _ a v dir body es I NE MI M)|exact A].
    + exists (OStdin :: map OE es). split; [exact (om_stdin E B cwd _ _ a dir body es I U MI M)|exact A].
    + exists [OStdin]. split; [exact (om_stdin_again E B cwd _ _ a I U)|exact A].
  - destruct I as [<-|[]]. apply peer_iff in D; [|exact W]. destruct D as (dir & inner & ps & F & M & A). exists [OE (EPeer None 0 ps)].
    split; [exact (om_peer E B cwd _ _ v dir inner ps F M)|]. apply app_one. cbn [app_o]. rewrite A. reflexivity.
  - destruct I as [<-|[]]. rewrite dir_is in D. destruct (e_cd E cwd v) as [abs|] eqn:CD; injection D as <-.
    + exists [OE (EDir 0 abs)]. split; [exact (om_dir E B cwd _ _ v abs CD)|reflexivity].
    + exists []. split; [exact (om_dir_missing E B cwd _ _ v CD)|]. rewrite set_conf_same. reflexivity.
  - destruct I as [<-|[]]. injection D as <-. exists [OE (ESet cwd (SUser v))]. split; [apply om_user; exact C|reflexivity].
  - destruct I as [<-|[]]. injection D as <-. exists [OE (ESet cwd (SOsGroup v))]. split; [apply om_group; exact C|reflexivity].
  - destruct I as [<-|[]]. destruct (parse_log_level v) as [l| | |] eqn:PL; try discriminate D. injection D as <-. apply level_iff in PL. subst v.
    exists [OE (ESet cwd (SLogStderr (Some l)))]. split; [apply om_log; exact C|]. cbn [app_os app_o app option_map]. rewrite stderr_is. reflexivity.
  - destruct I as [<-|[]]. destruct (parse_log_level v) as [l| | |] eqn:PL; try discriminate D. injection D as <-. apply level_iff in PL. subst v.
    exists [OE (ESet cwd (SLogSyslog None (Some l)))]. split; [apply om_syslog; exact C|reflexivity].
  - destruct I as [<-|[]]. injection D as <-. exists [OIdent v]. split; [apply om_ident; exact C|reflexivity].
  - apply mode_iff in D. destruct D as (m & -> & ->). exists [OE (ESet cwd (SMode m))]. split; [apply om_mode; assumption|reflexivity].
  - injection D as <-. destruct (ifname_ok v) eqn:K.
    + apply ifname_iff in K. exists [OE (ESet cwd (SIface v))]. split; [apply om_iface; assumption|reflexivity].
    + exists []. split; [apply om_iface_bad; [exact I|exact C|]|rewrite set_conf_same; reflexivity]. intros F. apply ifname_iff in F. congruence.
  - apply mtu_iff in D. destruct D as (n & NT & R & ->). exists [OE (ESet cwd (SMtu n))]. split; [apply om_mtu; assumption|reflexivity].
  - apply bind_iff in D. destruct D as (h & p & BA & ->). exists [OE (ESet cwd (SBind h p None None))]. split; [apply om_bind; assumption|reflexivity].
  - destruct (HandshakeProofs2.bytes_eqb_spec v (e_protocol E)) as [->|]; [|discriminate D]. injection D as <-. exists [].
    split; [apply om_protocol; assumption|]. rewrite set_conf_same. reflexivity.
  - destruct I as [<-|[]]. injection D as <-. exists [OE (EMethod 0 v)]. split; [apply om_method; exact C|reflexivity].
  - destruct I as [<-|[]]. injection D as <-. exists [OE (ESet cwd (SPreUp v))]. split; [apply om_pre_up; exact C|reflexivity].
  - destruct I as [<-|[]]. injection D as <-. exists [OE (EOn 0 Up (Command v cwd true))]. split; [apply om_up; exact C|reflexivity].
  - destruct I as [<-|[]]. injection D as <-. exists [OE (EOn 0 Down (Command v cwd true))]. split; [apply om_down; exact C|reflexivity].
  - destruct I as [<-|[]]. injection D as <-. exists [OE (ESet cwd (SPostDown v))]. split; [apply om_post_down; exact C|reflexivity].
  - destruct I as [<-|[]]. injection D as <-. exists [OE (EOn 0 Connect (Command v cwd false))]. split; [apply om_connect; exact C|reflexivity].
  - destruct I as [<-|[]]. injection D as <-. exists [OE (EOn 0 Establish (Command v cwd false))]. split; [apply om_establish; exact C|reflexivity].
  - destruct I as [<-|[]]. injection D as <-. exists [OE (EOn 0 Disestablish (Command v cwd false))]. split; [apply om_disestablish; exact C|reflexivity].
  - destruct I as [<-|[]]. injection D as <-. apply andb_prop in C. exists [OE (EVerify 0 (Command v cwd false))]. split; [apply om_verify; apply C|reflexivity].
Qed.

(** * Lines *)

Lemma handle_line o0 args oes : forall o o' rest, line_means E B cwd (o_stdin o) (List.length (c_groups (o_conf o))) args oes -> wfc (o_conf o) ->
  app_os E oes o = Some o' -> o0 = o -> handle E B cwd (args ++ rest) o0 = handle E B cwd rest o'.
Proof.
  intros o o' rest M. remember (o_stdin o) as u eqn:U. remember (List.length (c_groups (o_conf o))) as n eqn:L.
  revert o o' o0 U L. induction M as [u n | u n ws x tl y OM M IH]; intros o o' o0 U L W A ->.
  - cbn in A. injection A as <-. reflexivity.
  - rewrite app_os_app in A. destruct (app_os E x o) as [o1|] eqn:A1; [|discriminate]. subst u n. destruct (app_os_wfc E x o o1 A1 W) as (W1 & L1 & S1).
    destruct (option_done o ws x W OM) as [(a & f & -> & LK & D)|(a & v & k & -> & LK & D)].
    + cbn [List.app handle]. rewrite LK, D, A1. apply (IH o1 o'); auto.
    + cbn [List.app handle]. rewrite LK, (D o1 A1). cbn [bind]. apply (IH o1 o'); auto.
Qed.
Lemma handle_sound args : forall o r, wfc (o_conf o) -> handle E B cwd args o = r ->
  exists pre rest oes o', args = pre ++ rest /\ line_means E B cwd (o_stdin o) (List.length (c_groups (o_conf o))) pre oes /\ app_os E oes o = Some o' /\
    ((rest = [] /\ r = Ok (Run o')) \/ (exists a tl, rest = a :: tl /\ is_help a /\ r = Ok Exit0) \/
     (r = Fatal) \/ (exists a k v tl, rest = a :: v :: tl /\ lookup E B a = Some (inr k) /\ r = (do o <- do_arg E cwd k v o'; handle E B cwd tl o) /\
        forall o'', do_arg E cwd k v o' <> Ok o'')).
Proof.
  intros o. remember (List.length args) as n eqn:LN. revert args LN o. induction n as [n IH] using (well_founded_induction lt_wf). intros args -> o r W H.
  destruct args as [|a tl].
  - exists [], [], [], o. split; [reflexivity|]. split; [constructor|]. split; [reflexivity|]. left. split; [reflexivity|]. subst r. reflexivity.
  - cbn [handle] in H. destruct (lookup E B a) as [[f|k]|] eqn:LK.
    + destruct (do_flag f o) as [o1|] eqn:D.
      * destruct (flag_sound a f o o1 LK D) as (x & OM & A1). destruct (app_os_wfc E x o o1 A1 W) as (W1 & L1 & S1).
        destruct (IH (List.length tl) ltac:(cbn; lia) tl eq_refl o1 r W1 H) as (pre & rest & oes & o' & -> & M & A & F).
        exists ([a] ++ pre), rest, (x ++ oes), o'. split; [reflexivity|]. split; [apply lm_cons; [exact OM|rewrite <- S1, <- L1; exact M]|].
        split; [rewrite app_os_app, A1; exact A|exact F].
      * exists [], (a :: tl), [], o. split; [reflexivity|]. split; [constructor|]. split; [reflexivity|]. right. left. exists a, tl. split; [reflexivity|]. split; [|subst r; reflexivity].
        apply help_iff. exists f. split; [exact LK|exact (flag_none f o D)].
    + destruct tl as [|v tl].
      * exists [], [a], [], o. split; [reflexivity|]. split; [constructor|]. split; [reflexivity|]. right. right. left. subst r. reflexivity.
      * destruct (do_arg E cwd k v o) as [o1| | |] eqn:D.
        -- destruct (arg_sound a k v o o1 W LK D) as (x & OM & A1). destruct (app_os_wfc E x o o1 A1 W) as (W1 & L1 & S1). cbn [bind] in H.
           destruct (IH (List.length tl) ltac:(cbn; lia) tl eq_refl o1 r W1 H) as (pre & rest & oes & o' & -> & M & A & F).
           exists ([a; v] ++ pre), rest, (x ++ oes), o'. split; [reflexivity|]. split; [apply lm_cons; [exact OM|rewrite <- S1, <- L1; exact M]|].
           split; [rewrite app_os_app, A1; exact A|exact F].
        -- exists [], (a :: v :: tl), [], o. split; [reflexivity|]. split; [constructor|]. split; [reflexivity|]. right. right. right. exists a, k, v, tl.
           split; [reflexivity|]. split; [exact LK|]. rewrite D. split; [symmetry; exact H|]. discriminate.
        -- exists [], (a :: v :: tl), [], o. split; [reflexivity|]. split; [constructor|]. split; [reflexivity|]. right. right. left. symmetry. exact H.
        -- exists [], (a :: v :: tl), [], o. split; [reflexivity|]. split; [constructor|]. split; [reflexivity|]. right. right. right. exists a, k, v, tl.
           split; [reflexivity|]. split; [exact LK|]. rewrite D. split; [symmetry; exact H|]. discriminate.
    + exists [], (a :: tl), [], o. split; [reflexivity|]. split; [constructor|]. split; [reflexivity|]. right. right. left. subst r. reflexivity.
Qed.
End One.
