(** Lemmas about privileges: the steps of [init]. *)
From Verif Require Import Base BufferModel MethodModel AddrModel LexModel ConfigModel OptionsModel PrivModel PrivSpec PrivProofs.
From Coq Require Import Lia ZifyBool ZifyN.
Local Open Scope N_scope.

Section Init.
Context (S : sys) (c : conf) (pid : bool) (uid gid : N) (gs : option (list N)).

(** What holds throughout *)
Definition anytime : event -> cred -> Prop := fun _ _ => True.
Definition always (P : cred -> Prop) (m : steps) : Prop := leads P m anytime P.
Lemma leads_any m : always (fun _ => True) m.
Proof. intros k t r _ _. split; intros; exact Logic.I. Qed.
Lemma anytime_event e P : leads P (event_ e) anytime P.
Proof. apply leads_event. intros. exact Logic.I. Qed.

Lemma peers_keep (P : cred -> Prop) (T : event -> cred -> Prop) : (is_tap c = false -> forall k, P k -> T EvIface k /\ T EvUp k) -> leads P (configure_peers S c) T P.
Proof.
  intros H. unfold configure_peers. destruct (is_tap c) eqn:TP; [apply leads_nothing|]. specialize (H eq_refl). destruct (negb false && c_persist c); [|apply leads_nothing]. apply leads_peers.
  unfold iface_open. apply leads_then with (Q := P).
  - apply leads_then with (Q := P); [|apply leads_require]. apply leads_event. intros k K. apply H, K.
  - apply leads_event. intros k K. apply H, K.
Qed.

(** ** The order *)

Lemma shape_as_user m l : shape m l -> shape (as_user c uid gid m) l.
Proof.
  intros H k t r. unfold as_user. apply (shape_then _ _ [] l).
  - destruct (switches c); [|apply shape_nothing]. apply (shape_then _ _ [] []); apply shape_attempt.
  - rewrite <- (app_nil_r l). apply shape_then; [exact H|]. apply (shape_then _ _ [] []); apply shape_attempt.
Qed.
Lemma shape_try cap : shape (try_cap cap) [].
Proof. intros k t r. unfold try_cap. destruct (N.testbit (effective k) cap); [apply shape_nothing|apply shape_attempt]. Qed.
Lemma shape_keep b : shape (fun k => ([], Some (with_keep b k))) [].
Proof. intros k t r E. injection E as <- <-. exists []. split; reflexivity. Qed.
Lemma shape_set_user : shape (set_user c uid gid) [].
Proof. unfold set_user. destruct (switches c); [apply (shape_then _ _ [] []); apply shape_must|apply shape_nothing]. Qed.
Lemma shape_drop : shape (drop_caps S c uid gid) [].
Proof. unfold drop_caps, cap_drop. apply (shape_then _ _ [] []); [apply shape_set_user|]. destruct (s_caps S); [apply shape_must|apply shape_nothing]. Qed.
Definition expected : list event :=
  (match c_status c with Some _ => [EvStatus] | None => [] end) ++
  [EvBind; EvPreUp] ++
  (if is_tap c then [EvIface] else []) ++
  (if pid then [EvPid] else []) ++
  [EvReady] ++
  (if is_tap c then [EvUp] else if c_persist c then flat_map (fun p => if s_enabled S p then [EvIface; EvUp] else []) (rev (c_peers c)) else []) ++
  [EvDirs].
Lemma init_shape : shape (init_steps S c pid uid gid gs) expected.
Proof.
  unfold init_steps, expected.
  replace ((if is_tap c then [EvUp] else if c_persist c then flat_map (fun p => if s_enabled S p then [EvIface; EvUp] else []) (rev (c_peers c)) else []) ++ [EvDirs])
    with ((if is_tap c then [EvUp] else []) ++
      (if negb (is_tap c) && c_persist c then flat_map (fun p => if s_enabled S p then [EvIface; EvUp] else []) (rev (c_peers c)) else []) ++ [] ++ [EvDirs])
    by (destruct (is_tap c), (c_persist c); reflexivity).
  apply (shape_then _ _ []).
  { unfold cap_acquire. destruct (s_caps S); [|apply shape_nothing]. repeat (apply (shape_then _ _ [] []); [apply shape_try|]). apply shape_keep. }
  apply shape_then.
  { unfold status_init. destruct (c_status c); [|apply shape_nothing]. apply shape_as_user. apply (shape_then _ _ [EvStatus] []); [apply shape_event|apply shape_require]. }
  apply (shape_then _ _ [EvBind] (EvPreUp :: _)); [apply shape_event|]. apply (shape_then _ _ []); [apply shape_require|].
  apply (shape_then _ _ [EvPreUp]); [apply shape_event|]. apply shape_then.
  { destruct (is_tap c); [|apply shape_nothing]. apply (shape_then _ _ [EvIface] []); [apply shape_event|apply shape_require]. }
  apply (shape_then _ _ []).
  { unfold set_groups. destruct gs; [apply shape_attempt|]. destruct (switches c); [apply shape_attempt|apply shape_nothing]. }
  apply shape_then.
  { unfold write_pid. destruct pid; [|apply shape_nothing]. apply shape_as_user, shape_event. }
  apply shape_then; [apply shape_event|]. apply (shape_then _ _ []).
  { destruct (c_caps c); try apply shape_nothing; apply shape_drop. }
  apply shape_then; [destruct (is_tap c); [apply shape_event|apply shape_nothing]|]. apply shape_then.
  { unfold configure_peers. destruct (negb (is_tap c) && c_persist c); [|apply shape_nothing]. apply shape_peers.
    apply (shape_then _ _ [EvIface] [EvUp]); [|apply shape_event]. apply (shape_then _ _ [EvIface] []); [apply shape_event|apply shape_require]. }
  apply shape_then; [|apply shape_event]. destruct (c_caps c); try apply shape_nothing; [apply shape_set_user|apply shape_drop].
Qed.

(** ** Identity *)

Lemma set_user_runs T : switches c = true -> leads (fun _ => True) (set_user c uid gid) T (runs_as uid gid).
Proof.
  intros W. unfold set_user. rewrite W. apply leads_then with (Q := fun k => rgid k = gid /\ egid k = gid /\ sgid k = gid).
  - apply leads_must. intros k k' _ E. rewrite (setresgid_is _ _ _ _ _ E). repeat split; reflexivity.
  - apply leads_must. intros k k' (A1 & A2 & A3) E. apply setresuid_ids in E. destruct E as (B1 & B2 & B3 & B4 & B5 & B6 & _). unfold runs_as. rewrite B1, B2, B3, B4, B5, B6. repeat split; assumption || reflexivity.
Qed.
Lemma cap_drop_keeps (P : cred -> Prop) T : (forall p e i a k, P k -> P (with_caps p e i a k)) -> leads P (cap_drop S c) T P.
Proof.
  intros H. unfold cap_drop. destruct (s_caps S); [|apply leads_nothing]. apply leads_must. intros k k' HP E. rewrite (capset_is _ _ _ _ _ E). apply H, HP.
Qed.
Lemma drop_runs T : switches c = true -> leads (fun _ => True) (drop_caps S c uid gid) T (runs_as uid gid).
Proof. intros W. apply leads_then with (Q := runs_as uid gid); [apply set_user_runs, W|]. apply cap_drop_keeps. intros p e i a k H. exact H. Qed.

(** The last part, from where the program says that it is ready *)
Definition tail_steps : steps :=
  (match c_caps c with CapsEarly | CapsForce => drop_caps S c uid gid | _ => nothing end) >>
  (if is_tap c then event_ EvUp else nothing) >>
  configure_peers S c >>
  (match c_caps c with CapsOn => drop_caps S c uid gid | CapsOff => set_user c uid gid | _ => nothing end) >>
  event_ EvDirs.
Definition head_steps (m : steps) : steps :=
  cap_acquire S >> status_init S c uid gid >> event_ EvBind >> require (s_bind S) >> event_ EvPreUp >> (if is_tap c then iface_open S else nothing) >>
  set_groups S c gid gs >> write_pid c pid uid gid >> event_ EvReady >> m.
Lemma init_parts : init_steps S c pid uid gid gs = head_steps tail_steps.
Proof. reflexivity. Qed.
(** What a last part leads to from anywhere *)
Lemma head_any m T Q : leads (fun _ => True) m anytime Q -> T = anytime -> leads (fun _ => True) (head_steps m) T Q.
Proof.
  intros H ->. unfold head_steps. repeat (apply leads_then with (Q := fun _ => True); [first [apply (leads_any _)]|]). exact H.
Qed.
(** Late steps, by the time of dropping *)
Definition early : bool := match c_caps c with CapsEarly | CapsForce => true | _ => false end.
Definition drop_early : steps := if early then drop_caps S c uid gid else nothing.
Definition drop_late : steps := match c_caps c with CapsOn => drop_caps S c uid gid | CapsOff => set_user c uid gid | _ => nothing end.
Lemma tail_leads (P : cred -> Prop) (T : event -> cred -> Prop) (Q R : cred -> Prop) :
  leads P drop_early T Q -> (forall k, Q k -> T EvUp k /\ (is_tap c = false -> T EvIface k)) -> leads Q drop_late T R -> (forall k, R k -> T EvDirs k) -> leads P tail_steps T R.
Proof.
  intros H1 H2 H3 H4. unfold tail_steps. apply leads_then with (Q := Q).
  { unfold drop_early, early in H1. destruct (c_caps c); exact H1. }
  apply leads_then with (Q := Q).
  { destruct (is_tap c); [|apply leads_nothing]. apply leads_event. intros k K. apply H2, K. }
  apply leads_then with (Q := Q).
  { apply peers_keep. intros TP k K. destruct (H2 k K). auto. }
  apply leads_then with (Q := R); [exact H3|]. apply leads_event. exact H4.
Qed.
Lemma tail_runs : switches c = true -> leads (fun _ => True) tail_steps anytime (runs_as uid gid).
Proof.
  intros W. destruct early eqn:EA.
  - apply tail_leads with (Q := runs_as uid gid); [unfold drop_early; rewrite EA; apply drop_runs, W|intros; repeat split; exact Logic.I| |intros; exact Logic.I].
    unfold drop_late. unfold early in EA. destruct (c_caps c); try discriminate EA; apply leads_nothing.
  - apply tail_leads with (Q := fun _ => True); [apply leads_any|intros; repeat split; exact Logic.I| |intros; exact Logic.I].
    unfold drop_late. unfold early in EA. destruct (c_caps c); try discriminate EA; [apply set_user_runs, W|apply drop_runs, W].
Qed.
Lemma init_runs : switches c = true -> leads (fun _ => True) (init_steps S c pid uid gid gs) anytime (runs_as uid gid).
Proof. intros W. rewrite init_parts. apply head_any; [apply tail_runs, W|reflexivity]. Qed.

(** ** Capabilities *)

Definition only_retained (k : cred) : Prop := permitted k = retained c /\ effective k = retained c /\ inheritable k = 0 /\ ambient k = 0.
Lemma drop_retains P T : s_caps S = true -> leads P (drop_caps S c uid gid) T only_retained.
Proof.
  intros C. unfold drop_caps, cap_drop. rewrite C. apply leads_then with (Q := fun _ => True).
  - unfold set_user. destruct (switches c).
    + apply leads_then with (Q := fun _ => True); apply leads_must; intros; exact Logic.I.
    + apply leads_weaken with (P := P) (T := T) (Q := P); auto using leads_nothing.
  - apply leads_must. intros k k' _ E. rewrite (capset_is _ _ _ _ _ E). unfold only_retained. cbn. rewrite N.land_0_r, N.land_0_r. auto.
Qed.
Lemma init_retains : s_caps S = true -> c_caps c <> CapsOff -> leads (fun _ => True) (init_steps S c pid uid gid gs) anytime only_retained.
Proof.
  intros C D. rewrite init_parts. apply head_any; [|reflexivity]. destruct early eqn:EA.
  - apply tail_leads with (Q := only_retained); [unfold drop_early; rewrite EA; apply drop_retains, C|intros; repeat split; exact Logic.I| |intros; exact Logic.I].
    unfold drop_late. unfold early in EA. destruct (c_caps c); try discriminate EA; apply leads_nothing.
  - apply tail_leads with (Q := fun _ => True); [apply leads_any|intros; repeat split; exact Logic.I| |intros; exact Logic.I].
    unfold drop_late. unfold early in EA. destruct (c_caps c); try discriminate EA; [contradiction|apply drop_retains, C].
Qed.

(** ** Before the privileges are dropped *)

Context (k0 : cred).
(** At least the capabilities from the start are effective, and those that are tried to acquire *)
Definition enough (k : cred) : Prop :=
  (forall cap, has (effective k) cap -> has (permitted k) cap) /\
  (forall cap, has (effective k0) cap -> has (effective k) cap) /\
  (s_caps S = true -> forall cap, cap = NET_ADMIN \/ cap = NET_BIND_SERVICE \/ cap = NET_RAW -> has (permitted k0) cap -> has (effective k) cap).
Definition start_of (l : list N) (k : cred) : Prop :=
  same_ids k k0 /\ supp k = l /\ permitted k = permitted k0 /\ (s_caps S = true -> keep k = true) /\ enough k.
(** While something is done as the user *)
Definition within (l : list N) (k : cred) : Prop :=
  ruid k = ruid k0 /\ suid k = suid k0 /\ rgid k = rgid k0 /\ sgid k = sgid k0 /\ supp k = l /\ permitted k = permitted k0 /\ (s_caps S = true -> keep k = true) /\
  (if ruid k0 =? 0 then euid k = 0 -> enough k else euid k <> 0 /\ enough k) /\
  (switches c = false -> euid k = euid k0 /\ egid k = egid k0) /\
  (switches c = true -> has (effective k0) SETGID -> egid k = gid) /\ (switches c = true -> has (effective k0) SETUID -> euid k = uid).
Context (HP : plain k0) (HU : ruid k0 = 0 \/ uid <> 0).

Lemma enough_permitted k' : permitted k' = permitted k0 -> effective k' = permitted k0 -> enough k'.
Proof.
  intros E1 E2. unfold enough. rewrite E1, E2. split; [auto|]. split; [|auto]. apply HP.
Qed.
(** Changing the effective UID between that of the start and the configured one *)
Lemma seteuid_is e k : (e = ruid k \/ has (effective k) SETUID) -> suid k = ruid k -> (euid k <> 0 /\ ruid k <> 0 /\ e <> 0 \/ ruid k = 0) ->
  seteuid e k = Some (with_caps (permitted k) (if (euid k =? 0) && negb (e =? 0) then 0 else if negb (euid k =? 0) && (e =? 0) then permitted k else effective k)
     (inheritable k) (ambient k) (with_uids (ruid k) e (suid k) k)).
Proof.
  intros M ES R. unfold seteuid, setresuid.
  assert (M1 : may_uid k (ruid k) = true) by (unfold may_uid; rewrite N.eqb_refl, !Bool.orb_true_r; reflexivity).
  assert (M2 : may_uid k e = true). { unfold may_uid. destruct M as [->|M]; [rewrite N.eqb_refl, !Bool.orb_true_r; reflexivity|unfold has in M; rewrite M; reflexivity]. }
  rewrite ES, M1, M2. cbn [andb]. f_equal. unfold fixup, any_root. cbn [ruid euid suid with_uids keep].
  destruct R as [(R1 & R2 & R3)|R].
  - apply N.eqb_neq in R1, R2, R3. rewrite ES, R1, R2, R3. cbn. rewrite ?R1, ?R3. cbn. unfold with_caps, with_uids. cbn. reflexivity.
  - rewrite ES, R. cbn. destruct (euid k =? 0) eqn:E1, (e =? 0) eqn:E2; cbn; unfold with_caps, with_uids; cbn; reflexivity.
Qed.
Lemma seteuid_none e k : e <> ruid k -> e <> euid k -> suid k = ruid k -> ~ has (effective k) SETUID -> seteuid e k = None.
Proof.
  intros E1 E2 E3 H. unfold seteuid, setresuid. assert (M : may_uid k e = false); [|rewrite M, Bool.andb_false_r; reflexivity].
  unfold may_uid. rewrite E3. apply N.eqb_neq in E1, E2. rewrite E1, E2. unfold has in H. destruct (N.testbit (effective k) SETUID); [exfalso; apply H; reflexivity|reflexivity].
Qed.

Lemma plain_ids : euid k0 = ruid k0 /\ suid k0 = ruid k0 /\ egid k0 = rgid k0 /\ sgid k0 = rgid k0.
Proof. destruct HP as [(_ & A2 & A3 & _ & A5 & A6) _]. auto. Qed.

(** Becoming the user *)
Lemma become_within l T : leads (start_of l) (if switches c then attempt (setegid gid) >> attempt (seteuid uid) else nothing) T (within l).
Proof.
  destruct plain_ids as (P1 & P2 & P3 & P4). destruct (switches c) eqn:W.
  - apply leads_then with (Q := fun k => ruid k = ruid k0 /\ euid k = euid k0 /\ suid k = suid k0 /\ rgid k = rgid k0 /\ sgid k = sgid k0 /\
        supp k = l /\ permitted k = permitted k0 /\ (s_caps S = true -> keep k = true) /\ enough k /\ (has (effective k0) SETGID -> egid k = gid)).
    + apply leads_attempt. intros k ((A1 & A2 & A3 & A4 & A5 & A6) & A7 & A8 & A9 & EN). destruct (setegid gid k) as [k'|] eqn:E.
      * unfold setegid in E. apply setresgid_is in E. subst k'. cbn. do 8 (split; [assumption|]). split; [exact EN|reflexivity].
      * do 8 (split; [assumption|]). split; [exact EN|]. intros H. exfalso. unfold setegid, setresgid in E.
        assert (M : forall x, may_gid k x = true).
        { intros x. unfold may_gid. destruct EN as (_ & EN & _). apply EN in H. unfold has in H. rewrite H. reflexivity. }
        rewrite !M in E. discriminate E.
    + apply leads_attempt. intros k (A1 & A2 & A3 & A4 & A5 & A6 & A7 & A8 & EN & A9).
      assert (BK : seteuid uid k = None -> within l k).
      { intros E. unfold within. do 7 (split; [assumption|]). split.
        - destruct (ruid k0 =? 0) eqn:R; [intros _; exact EN|]. split; [rewrite A2, P1; apply N.eqb_neq, R|exact EN].
        - split; [intros K; congruence|]. split; [intros _; exact A9|]. intros _ H. exfalso. unfold seteuid, setresuid in E.
          assert (M : forall x, may_uid k x = true).
          { intros x. unfold may_uid. destruct EN as (_ & EN & _). apply EN in H. unfold has in H. rewrite H. reflexivity. }
          rewrite !M in E. discriminate E. }
      destruct (seteuid uid k) as [k'|] eqn:E; [|apply BK; reflexivity].
      assert (MAY : uid = ruid k \/ has (effective k) SETUID).
      { destruct (N.eq_dec uid (ruid k)) as [EQ|NE]; [left; exact EQ|]. right. unfold has. destruct (N.testbit (effective k) SETUID) eqn:TB; [reflexivity|].
        assert (K : seteuid uid k = None); [|rewrite K in E; discriminate E].
        apply seteuid_none; [exact NE|congruence|congruence|]. unfold has. rewrite TB. discriminate. }
      rewrite seteuid_is in E; [|exact MAY|congruence|].
      2:{ destruct (N.eq_dec (ruid k) 0) as [Z|Z]; [right; exact Z|left]. split; [congruence|]. split; [exact Z|]. destruct HU as [HU'|HU']; [congruence|exact HU']. }
      injection E as <-. unfold within. cbn. do 7 (split; [assumption|]). split.
      { destruct (ruid k0 =? 0) eqn:R.
        - intros ->. rewrite A2, P1, R. cbn. unfold enough in EN |- *. cbn. exact EN.
        - assert (uid <> 0) by (destruct HU; [lia|assumption]). split; [assumption|]. rewrite A2, P1, R. cbn. apply N.eqb_neq in H. rewrite H. unfold enough in EN |- *. cbn. exact EN. }
      split; [intros K; congruence|]. split; [intros _; exact A9|]. intros _ _. reflexivity.
  - intros k t r ((A1 & A2 & A3 & A4 & A5 & A6) & A7 & A8 & A9 & EN) E. injection E as <- <-. split; [intros e k' []|]. intros k' K. injection K as <-.
    unfold within. do 7 (split; [assumption|]). split.
    + destruct (ruid k0 =? 0) eqn:R; [intros _; exact EN|]. split; [rewrite A2, P1; apply N.eqb_neq, R|exact EN].
    + split; [intros _; split; assumption|]. split; intros K; congruence.
Qed.
(** And back *)
Lemma back_start l T : leads (within l) (attempt (seteuid (euid k0)) >> attempt (setegid (egid k0))) T (start_of l).
Proof.
  destruct plain_ids as (P1 & P2 & P3 & P4).
  apply leads_then with (Q := fun k => ruid k = ruid k0 /\ euid k = euid k0 /\ suid k = suid k0 /\ rgid k = rgid k0 /\ sgid k = sgid k0 /\
        supp k = l /\ permitted k = permitted k0 /\ (s_caps S = true -> keep k = true) /\ enough k).
  - apply leads_attempt. intros k (A1 & A2 & A3 & A4 & A5 & A6 & A7 & A8 & _). rewrite seteuid_is; [|left; congruence|congruence|].
    2:{ destruct (N.eqb_spec (ruid k0) 0) as [Z|Z]; [right; congruence|left]. destruct A8 as [A8 _]. split; [exact A8|]. split; congruence. }
    cbn. do 7 (split; [congruence|]). split; [exact A7|]. destruct (ruid k0 =? 0) eqn:R.
    + rewrite P1, R. destruct (euid k =? 0) eqn:EZ; cbn.
      * apply N.eqb_eq in EZ. specialize (A8 EZ). unfold enough in A8 |- *. cbn. exact A8.
      * apply enough_permitted; cbn; congruence.
    + destruct A8 as [EZ EN]. apply N.eqb_neq in EZ. rewrite P1, R, EZ. cbn. unfold enough in EN |- *. cbn. exact EN.
  - apply leads_attempt. intros k (A1 & A2 & A3 & A4 & A5 & A6 & A7 & A8 & EN). unfold setegid, setresgid.
    assert (M : may_gid k (rgid k) = true /\ may_gid k (sgid k) = true /\ may_gid k (egid k0) = true).
    { unfold may_gid. rewrite P3, A4, A5, P4, N.eqb_refl, !Bool.orb_true_r. auto. }
    destruct M as (M1 & M2 & M3). rewrite M1, M2, M3. cbn. unfold start_of, same_ids. cbn.
    split; [repeat split; congruence|]. split; [assumption|]. split; [assumption|]. split; [assumption|]. exact EN.
Qed.
Lemma as_user_start l m (T : event -> cred -> Prop) : leads (within l) m T (within l) -> leads (start_of l) (as_user c uid gid m) T (start_of l).
Proof.
  intros H k t r HS E.
  assert (X : leads (start_of l) ((if switches c then attempt (setegid gid) >> attempt (seteuid uid) else nothing) >> m >> attempt (seteuid (euid k0)) >> attempt (setegid (egid k0))) T (start_of l)).
  { apply leads_then with (Q := within l); [apply become_within|]. apply leads_then with (Q := within l); [exact H|]. apply back_start. }
  apply (X k t r HS). destruct HS as ((_ & E1 & _ & _ & E2 & _) & _). unfold as_user in E. rewrite E1, E2 in E. exact E.
Qed.

(** Acquiring capabilities *)
Lemma try_start cap l k t r : same_ids k k0 /\ supp k = l /\ permitted k = permitted k0 /\ (forall x, has (effective k) x -> has (permitted k) x) /\ (forall x, has (effective k0) x -> has (effective k) x) ->
  try_cap cap k = (t, r) -> t = [] /\ exists k', r = Some k' /\
    (same_ids k' k0 /\ supp k' = l /\ permitted k' = permitted k0 /\ (forall x, has (effective k') x -> has (permitted k') x) /\ (forall x, has (effective k0) x -> has (effective k') x)) /\
    (forall x, has (effective k) x -> has (effective k') x) /\ (has (permitted k0) cap -> has (effective k') cap).
Proof.
  intros (A1 & A2 & A3 & A4 & A5) E. unfold try_cap in E. destruct (N.testbit (effective k) cap) eqn:TB.
  - injection E as <- <-. split; [reflexivity|]. exists k. split; [reflexivity|]. repeat (split; [assumption|]). split; [|split].
    + repeat (split; [assumption|]). assumption.
    + auto.
    + intros _. exact TB.
  - injection E as <- <-. split; [reflexivity|].
    assert (LOR : forall x, has (N.lor (effective k) (2 ^ cap)) x <-> has (effective k) x \/ x = cap).
    { intros x. rewrite has_lor. assert (B := has_bit true cap x). cbn in B. rewrite B. intuition. }
    destruct (capset (permitted k) (N.lor (effective k) (2 ^ cap)) (inheritable k) k) as [k'|] eqn:CS.
    + eexists. split; [reflexivity|]. assert (SB : subset (N.lor (effective k) (2 ^ cap)) (permitted k) = true).
      { unfold capset in CS. destruct (subset (N.lor (effective k) (2 ^ cap)) (permitted k)); [reflexivity|]. rewrite Bool.andb_false_r in CS. discriminate CS. }
      rewrite subset_spec in SB. apply capset_is in CS. subst k'. split; [|split].
      * split; [exact A1|]. split; [exact A2|]. split; [exact A3|]. split; [exact SB|]. intros x H. cbn. apply LOR. left. apply A5, H.
      * intros x H. cbn. apply LOR. left. exact H.
      * intros _. cbn. apply LOR. right. reflexivity.
    + exists k. split; [reflexivity|]. split; [|split].
      * split; [exact A1|]. split; [exact A2|]. split; [exact A3|]. split; assumption.
      * auto.
      * intros H. exfalso. unfold capset in CS. assert (S1 : subset (permitted k) (permitted k) = true) by (apply subset_spec; auto).
        assert (S2 : subset (inheritable k) (inheritable k) = true) by (apply subset_spec; auto).
        assert (S3 : subset (N.lor (effective k) (2 ^ cap)) (permitted k) = true).
        { apply subset_spec. intros x X. apply LOR in X. destruct X as [X|X]; [apply A4, X|subst x; rewrite A3; exact H]. }
        rewrite S1, S2, S3 in CS. discriminate CS.
Qed.
Lemma acquire_start T : leads (fun k => k = k0) (cap_acquire S) T (start_of (supp k0)).
Proof.
  destruct HP as [_ HE].
  assert (B0 : same_ids k0 k0 /\ supp k0 = supp k0 /\ permitted k0 = permitted k0 /\ (forall x, has (effective k0) x -> has (permitted k0) x) /\ (forall x, has (effective k0) x -> has (effective k0) x)).
  { split; [repeat split; reflexivity|]. auto. }
  intros k t r -> E. unfold cap_acquire in E. destruct (s_caps S) eqn:C.
  - unfold andthen in E.
    destruct (try_cap NET_ADMIN k0) as [t1 r1] eqn:E1. destruct (try_start _ _ _ _ _ B0 E1) as (-> & k1 & -> & B1 & U1 & N1).
    destruct (try_cap NET_BIND_SERVICE k1) as [t2 r2] eqn:E2. destruct (try_start _ _ _ _ _ B1 E2) as (-> & k2 & -> & B2 & U2 & N2).
    destruct (try_cap NET_RAW k2) as [t3 r3] eqn:E3. destruct (try_start _ _ _ _ _ B2 E3) as (-> & k3 & -> & B3 & U3 & N3).
    injection E as <- <-. split; [intros e k' []|]. intros k' K. injection K as <-. destruct B3 as (A1 & A2 & A3 & A4 & A5).
    unfold start_of. split; [exact A1|]. split; [exact A2|]. split; [exact A3|]. split; [reflexivity|]. split; [exact A4|]. split; [exact A5|].
    intros _ cap [-> | [-> | ->]] H; cbn; auto.
  - injection E as <- <-. split; [intros e k' []|]. intros k' K. injection K as <-. unfold start_of, enough. rewrite C.
    split; [apply B0|]. split; [reflexivity|]. split; [reflexivity|]. split; [discriminate|]. split; [exact HE|]. split; [auto|discriminate].
Qed.
Definition new_groups (l : list N) : Prop :=
  l = supp k0 \/ match gs with Some x => l = x | None => switches c = true /\ l = [gid] end.
Definition set_groups_to : list N := match gs with Some x => x | None => if switches c then [gid] else supp k0 end.
Lemma groups_start T : has (effective k0) SETGID -> s_setgroups S = true -> leads (start_of (supp k0)) (set_groups S c gid gs) T (start_of set_groups_to).
Proof.
  intros H A. unfold set_groups, set_groups_to.
  assert (X : forall l, leads (start_of (supp k0)) (attempt (setgroups (s_setgroups S) l)) T (start_of l)).
  { intros l. apply leads_attempt. intros k (A1 & A2 & A3 & A4 & EN). unfold setgroups. rewrite A. destruct EN as (E1 & E2 & E3). assert (H' := E2 _ H). unfold has in H'. rewrite H'. cbn.
    unfold start_of. cbn. split; [exact A1|]. split; [reflexivity|]. split; [exact A3|]. split; [exact A4|]. unfold enough. cbn. auto. }
  destruct gs; [apply X|]. destruct (switches c); [apply X|apply leads_nothing].
Qed.
Definition start_any (k : cred) : Prop := exists l, start_of l k.
Lemma groups_any T : leads start_any (set_groups S c gid gs) T start_any.
Proof.
  assert (X : forall l, leads start_any (attempt (setgroups (s_setgroups S) l)) T start_any).
  { intros l. apply leads_attempt. intros k (l0 & A1 & A2 & A3 & A4 & EN). destruct (setgroups _ l k) as [k'|] eqn:E; [|exists l0; split; auto].
    apply setgroups_is in E. subst k'. exists l. unfold start_of, same_ids, enough in *. cbn. auto. }
  unfold set_groups. destruct gs; [apply X|]. destruct (switches c); [apply X|apply leads_nothing].
Qed.
Lemma any_of m T : (forall l, leads (start_of l) m T (start_of l)) -> leads start_any m T start_any.
Proof. intros H k t r (l & K) E. destruct (H l k t r K E) as [A B]. split; [exact A|]. intros k' X. exists l. apply B, X. Qed.

(** The first part *)
Definition early_event (e : event) (k : cred) : Prop :=
  match e with
  | EvBind | EvPreUp => start_of (supp k0) k
  | EvStatus => within (supp k0) k
  | EvPid => exists l, within l k
  | EvReady => start_any k
  | EvIface => is_tap c = true -> start_of (supp k0) k
  | EvUp | EvDirs => True
  end.
Lemma head_leads (T : event -> cred -> Prop) (M : cred -> Prop) m Q :
  (forall e k, early_event e k -> e <> EvIface -> e <> EvUp -> e <> EvDirs -> T e k) ->
  (forall k, is_tap c = true -> start_of (supp k0) k -> T EvIface k) ->
  leads (start_of (supp k0)) (set_groups S c gid gs) T M ->
  (forall k, M k -> exists l, start_of l k) ->
  (forall l k, start_of l k -> M k -> forall k', start_of l k' -> M k') ->
  leads M m T Q -> leads (fun k => k = k0) (head_steps m) T Q.
Proof.
  intros HT HI HG HM HM2 H. unfold head_steps.
  apply leads_then with (Q := start_of (supp k0)); [apply acquire_start|].
  apply leads_then with (Q := start_of (supp k0)).
  { unfold status_init. destruct (c_status c); [|apply leads_nothing]. apply as_user_start. apply leads_then with (Q := within (supp k0)); [|apply leads_require].
    apply leads_event. intros k K. apply HT; [exact K|discriminate..]. }
  apply leads_then with (Q := start_of (supp k0)). { apply leads_event. intros k K. apply HT; [exact K|discriminate..]. }
  apply leads_then with (Q := start_of (supp k0)); [apply leads_require|].
  apply leads_then with (Q := start_of (supp k0)). { apply leads_event. intros k K. apply HT; [exact K|discriminate..]. }
  apply leads_then with (Q := start_of (supp k0)).
  { destruct (is_tap c) eqn:TP; [|apply leads_nothing]. apply leads_then with (Q := start_of (supp k0)); [|apply leads_require].
    apply leads_event. intros k K. apply HI; [reflexivity|exact K]. }
  apply leads_then with (Q := M); [exact HG|].
  apply leads_then with (Q := M).
  { unfold write_pid. destruct pid; [|apply leads_nothing]. intros k t r K E. destruct (HM k K) as (l & SL).
    assert (X : leads (start_of l) (as_user c uid gid (event_ EvPid)) T (start_of l)).
    { apply as_user_start, leads_event. intros k1 K1. apply HT; [exists l; exact K1|discriminate..]. }
    destruct (X k t r SL E) as [A B]. split; [exact A|]. intros k' Y. exact (HM2 l k SL K k' (B k' Y)). }
  apply leads_then with (Q := M); [|exact H]. apply leads_event. intros k K. apply HT; [exact (HM k K)|discriminate..].
Qed.
End Init.
