(** Lemmas about privileges: the whole of [init], and what follows. *)
From Verif Require Import Base BufferModel MethodModel AddrModel LexModel ConfigModel OptionsModel PrivModel PrivSpec PrivProofs PrivProofs2.
From Coq Require Import Lia ZifyBool ZifyN.
Local Open Scope N_scope.

Lemma leads_and P m T T' Q Q' : leads P m T Q -> leads P m T' Q' -> leads P m (fun e k => T e k /\ T' e k) (fun k => Q k /\ Q' k).
Proof. intros H1 H2 k t r HP E. destruct (H1 k t r HP E), (H2 k t r HP E). split; intros; split; auto. Qed.

Definition opid (o : ost) : bool := match o_pid o with Some _ => true | None => false end.
Lemma init_is S o k0 : forall t r, init S o k0 = (t, r) ->
  (t = [] /\ r = None) \/
  exists uid gid, target S (o_conf o) k0 uid gid /\
    init_steps S (o_conf o) (opid o) uid gid (match c_user (o_conf o) with Some u => Some (s_list S u gid) | None => None end) k0 = (t, r).
Proof.
  intros t r E. unfold init in E. destruct (configure_user S (o_conf o) k0) as [[[uid gid] gs]|] eqn:C.
  - right. exists uid, gid. destruct (configure_target _ _ _ _ _ _ C) as [A ->]. split; [exact A|exact E].
  - left. injection E as <- <-. split; reflexivity.
Qed.

Lemma init_order S o k0 t r : init S o k0 = (t, r) -> exists rest, happenings S o = map fst t ++ rest /\ (r <> None -> rest = []).
Proof.
  intros E. destruct (init_is _ _ _ _ _ E) as [[-> ->]|(uid & gid & _ & E')].
  - exists (happenings S o). split; [reflexivity|]. intros K. contradiction.
  - destruct (init_shape _ _ _ _ _ _ _ _ _ E') as (rest & A & B). exists rest. split; [|exact B]. rewrite <- A. unfold happenings, expected, is_tap, opid.
    destruct (c_mode (o_conf o)), (o_pid o); reflexivity.
Qed.

(** * Identity *)

Section Same.
Context (S : sys) (c : conf) (pid : bool) (uid gid : N) (gs : option (list N)) (k0 : cred) (W : switches c = false).
Notation same := (fun k => same_ids k k0).
Lemma try_same cap : leads same (try_cap cap) anytime same.
Proof.
  intros k t r HS E. unfold try_cap in E. destruct (N.testbit (effective k) cap).
  - exact (leads_nothing _ _ k t r HS E).
  - refine (leads_attempt same same _ anytime _ k t r HS E). intros k1 H1. destruct (capset _ _ _ k1) eqn:CS; [|exact H1]. rewrite (capset_is _ _ _ _ _ CS). exact H1.
Qed.
Lemma as_user_same m : leads same m anytime same -> leads same (as_user c uid gid m) anytime same.
Proof.
  intros H k t r HS E. unfold as_user in E. rewrite W in E.
  assert (EQ : euid k = euid k0 /\ egid k = egid k0) by (destruct HS as (_ & A & _ & _ & B & _); auto). destruct EQ as [EQ1 EQ2]. rewrite EQ1, EQ2 in E.
  refine (leads_then _ _ _ same _ same (leads_nothing same anytime) _ k t r HS E).
  apply leads_then with (Q := same); [exact H|]. apply leads_then with (Q := same); apply leads_attempt; intros k1 H1.
  - destruct (seteuid (euid k0) k1) as [k2|] eqn:E2; [|exact H1]. unfold seteuid in E2. apply setresuid_ids in E2. destruct H1 as (A1 & A2 & A3 & A4 & A5 & A6), E2 as (B1 & B2 & B3 & B4 & B5 & B6 & _).
    unfold same_ids. repeat split; congruence.
  - destruct (setegid (egid k0) k1) as [k2|] eqn:E2; [|exact H1]. unfold setegid in E2. apply setresgid_is in E2. subst k2. destruct H1 as (A1 & A2 & A3 & A4 & A5 & A6).
    unfold same_ids. cbn. repeat split; congruence.
Qed.
Lemma set_user_same T : leads same (set_user c uid gid) T same.
Proof. unfold set_user. rewrite W. apply leads_nothing. Qed.
Lemma drop_same T : leads same (drop_caps S c uid gid) T same.
Proof. apply leads_then with (Q := same); [apply set_user_same|]. apply cap_drop_keeps. intros p e i a k H. exact H. Qed.
Lemma init_same : leads same (init_steps S c pid uid gid gs) anytime same.
Proof.
  unfold init_steps. apply leads_then with (Q := same).
  { unfold cap_acquire. destruct (s_caps S); [|apply leads_nothing]. repeat (apply leads_then with (Q := same); [apply try_same|]).
    intros k t r H E. injection E as <- <-. split; [intros e k' []|]. intros k' K. injection K as <-. exact H. }
  apply leads_then with (Q := same).
  { unfold status_init. destruct (c_status c); [|apply leads_nothing]. apply as_user_same. apply leads_then with (Q := same); [apply anytime_event|apply leads_require]. }
  apply leads_then with (Q := same); [apply anytime_event|]. apply leads_then with (Q := same); [apply leads_require|]. apply leads_then with (Q := same); [apply anytime_event|].
  apply leads_then with (Q := same).
  { destruct (is_tap c); [|apply leads_nothing]. apply leads_then with (Q := same); [apply anytime_event|apply leads_require]. }
  apply leads_then with (Q := same).
  { assert (X : forall l, leads same (attempt (setgroups (s_setgroups S) l)) anytime same).
    { intros l. apply leads_attempt. intros k H. destruct (setgroups _ l k) eqn:E; [|exact H]. rewrite (setgroups_is _ _ _ _ E). exact H. }
    unfold set_groups. destruct gs; [apply X|]. rewrite W. apply leads_nothing. }
  apply leads_then with (Q := same).
  { unfold write_pid. destruct pid; [|apply leads_nothing]. apply as_user_same, anytime_event. }
  apply leads_then with (Q := same); [apply anytime_event|]. apply leads_then with (Q := same). { destruct (c_caps c); try apply leads_nothing; apply drop_same. }
  apply leads_then with (Q := same). { destruct (is_tap c); [apply anytime_event|apply leads_nothing]. }
  apply leads_then with (Q := same). { apply peers_keep. intros; repeat split; exact Logic.I. }
  apply leads_then with (Q := same); [|apply anytime_event]. destruct (c_caps c); try apply leads_nothing; [apply set_user_same|apply drop_same].
Qed.
End Same.

Lemma not_wants c : ~ wants_user c <-> switches c = false.
Proof. rewrite <- switches_spec. destruct (switches c); split; intros H; try reflexivity; try discriminate; try (intros K; discriminate K). exfalso. apply H. reflexivity. Qed.
Lemma init_identity S o k0 t k : init S o k0 = (t, Some k) -> exists uid gid, target S (o_conf o) k0 uid gid /\ switched (o_conf o) k0 uid gid k.
Proof.
  intros E. destruct (init_is _ _ _ _ _ E) as [[_ K]|(uid & gid & T & E')]; [discriminate K|]. exists uid, gid. split; [exact T|]. split; intros W.
  - apply switches_spec in W. exact (proj2 (init_runs _ _ _ _ _ _ W _ _ _ Logic.I E') _ eq_refl).
  - apply not_wants in W. refine (proj2 (init_same _ _ _ _ _ _ k0 W _ _ _ _ E') _ eq_refl). repeat split; reflexivity.
Qed.

(** * Groups *)

Section Groups.
Context (S : sys) (c : conf) (pid : bool) (uid gid : N) (gs : option (list N)) (k0 : cred) (HP : plain k0) (HU : ruid k0 = 0 \/ uid <> 0).
Context (HS : has (effective k0) SETGID) (HA : s_setgroups S = true).
Definition group_event (l : list N) (e : event) (k : cred) : Prop :=
  match e with EvPid | EvReady | EvUp | EvDirs => supp k = l | EvStatus | EvBind | EvPreUp => supp k = supp k0 | EvIface => if is_tap c then True else supp k = l end.
Lemma set_user_supp l T : leads (fun k => supp k = l) (set_user c uid gid) T (fun k => supp k = l).
Proof.
  unfold set_user. destruct (switches c); [|apply leads_nothing]. apply leads_then with (Q := fun k => supp k = l); apply leads_must; intros k k' H E.
  - rewrite (setresgid_is _ _ _ _ _ E). exact H.
  - apply setresuid_ids in E. destruct E as (_ & _ & _ & _ & _ & _ & E & _). congruence.
Qed.
Lemma drop_supp l T : leads (fun k => supp k = l) (drop_caps S c uid gid) T (fun k => supp k = l).
Proof. apply leads_then with (Q := fun k => supp k = l); [apply set_user_supp|]. apply cap_drop_keeps. intros p e i a k H. exact H. Qed.
Lemma init_supp : leads (fun k => k = k0) (init_steps S c pid uid gid gs) (group_event (set_groups_to c gid gs k0)) (fun k => supp k = set_groups_to c gid gs k0).
Proof.
  set (l := set_groups_to c gid gs k0). rewrite init_parts.
  assert (Z : forall e k, group_event l e k -> group_event l e k) by auto.
  (* the PID file is written with the new groups *)
  unfold head_steps.
  apply leads_then with (Q := start_of S k0 (supp k0)); [apply acquire_start with (uid := uid); assumption|].
  apply leads_then with (Q := start_of S k0 (supp k0)).
  { unfold status_init. destruct (c_status c); [|apply leads_nothing]. apply as_user_start; [assumption..|].
    apply leads_then with (Q := within S c uid gid k0 (supp k0)); [|apply leads_require]. apply leads_event. intros k K. apply K. }
  apply leads_then with (Q := start_of S k0 (supp k0)). { apply leads_event. intros k K. apply K. }
  apply leads_then with (Q := start_of S k0 (supp k0)); [apply leads_require|].
  apply leads_then with (Q := start_of S k0 (supp k0)). { apply leads_event. intros k K. apply K. }
  apply leads_then with (Q := start_of S k0 (supp k0)).
  { destruct (is_tap c) eqn:TP; [|apply leads_nothing]. apply leads_then with (Q := start_of S k0 (supp k0)); [|apply leads_require]. apply leads_event. intros k K. unfold group_event. rewrite TP. exact Logic.I. }
  apply leads_then with (Q := start_of S k0 l); [apply groups_start; assumption|].
  apply leads_then with (Q := start_of S k0 l).
  { unfold write_pid. destruct pid; [|apply leads_nothing]. apply as_user_start; [assumption..|]. apply leads_event. intros k K. apply K. }
  apply leads_then with (Q := start_of S k0 l). { apply leads_event. intros k K. apply K. }
  assert (X : leads (fun k => supp k = l) (tail_steps S c uid gid) (group_event l) (fun k => supp k = l)).
  { apply tail_leads with (Q := fun k => supp k = l).
    - unfold drop_early. destruct (early c); [apply drop_supp|apply leads_nothing].
    - intros k K. split; [exact K|]. intros TP. unfold group_event. rewrite TP. exact K.
    - unfold drop_late. destruct (c_caps c); try apply leads_nothing; [apply set_user_supp|apply drop_supp].
    - intros k K. exact K. }
  apply leads_weaken with (1 := X); auto. intros k K. apply K.
Qed.
End Groups.
Lemma init_groups S o k0 uid gid t r : init S o k0 = (t, r) -> target S (o_conf o) k0 uid gid -> plain k0 -> ruid k0 = 0 \/ uid <> 0 ->
  has (effective k0) SETGID -> s_setgroups S = true ->
  let l := if switches (o_conf o) then target_groups S (o_conf o) gid else supp k0 in
  (forall k, r = Some k -> supp k = l) /\
  (forall e k, In (e, k) t -> match e with EvPid | EvReady | EvUp | EvDirs => supp k = l | EvStatus | EvBind | EvPreUp => supp k = supp k0 | EvIface => c_mode (o_conf o) = Tap \/ supp k = l end).
Proof.
  intros E T HP HU HS HA. destruct (init_is _ _ _ _ _ E) as [[-> ->]|(u & g & T' & E')]; [split; [intros k K; discriminate K|intros e k []]|].
  destruct (target_unique _ _ _ _ _ _ _ T T') as [<- <-]. cbv zeta.
  destruct (init_supp S (o_conf o) (opid o) uid gid _ k0 HP HU HS HA k0 _ _ eq_refl E') as [A B].
  assert (L : set_groups_to (o_conf o) gid (match c_user (o_conf o) with Some u => Some (s_list S u gid) | None => None end) k0 =
     if switches (o_conf o) then target_groups S (o_conf o) gid else supp k0).
  { unfold set_groups_to, target_groups, switches. destruct (c_user (o_conf o)), (c_group (o_conf o)); reflexivity. }
  rewrite L in A, B. split; [exact B|]. intros e k Hin. specialize (A e k Hin). unfold group_event, is_tap in A. destruct e; try exact A. destruct (c_mode (o_conf o)); [left; reflexivity|right; exact A..].
Qed.

(** * Capabilities *)

Lemma init_caps S o k0 t k : init S o k0 = (t, Some k) -> s_caps S = true -> c_caps (o_conf o) <> CapsOff ->
  (forall cap, has (permitted k) cap <-> retains (o_conf o) cap) /\ (forall cap, has (effective k) cap <-> retains (o_conf o) cap) /\ inheritable k = 0 /\ ambient k = 0.
Proof.
  intros E C D. destruct (init_is _ _ _ _ _ E) as [[_ K]|(uid & gid & T & E')]; [discriminate K|].
  destruct (proj2 (init_retains _ _ _ _ _ _ C D _ _ _ Logic.I E') _ eq_refl) as (A1 & A2 & A3 & A4). rewrite A1, A2. split; [apply retained_spec|]. split; [apply retained_spec|]. auto.
Qed.

Lemma retains_net c cap : retains c cap -> cap = NET_ADMIN \/ cap = NET_BIND_SERVICE \/ cap = NET_RAW.
Proof. intros [[-> _]|[[-> _]|[-> _]]]; auto. Qed.

(** Nothing is ever regained *)
Section Forever.
Context (R : N -> Prop) (HR : forall cap, R cap -> cap <> SETUID /\ cap <> SETGID) (uid gid : N) (l : list N) (HZ : uid <> 0).
Definition confined (k : cred) : Prop :=
  runs_as uid gid k /\ supp k = l /\ (forall cap, has (permitted k) cap -> R cap) /\ (forall cap, has (effective k) cap -> R cap) /\ (forall cap, has (ambient k) cap -> R cap).
Lemma confined_fixup k : confined k -> fixup k k = k.
Proof.
  intros ((A1 & A2 & A3 & _) & _). unfold fixup, any_root. apply N.eqb_neq in HZ. rewrite A1, A2, A3, HZ. cbn. rewrite A2, HZ. reflexivity.
Qed.
Lemma with_uids_same k : with_uids (ruid k) (euid k) (suid k) k = k.
Proof. destruct k; reflexivity. Qed.
Lemma with_gids_same k : with_gids (rgid k) (egid k) (sgid k) k = k.
Proof. destruct k; reflexivity. Qed.
Lemma calls_confined k k' : calls k k' -> confined k -> confined k'.
Proof.
  induction 1 as [k|r e s k k1 k2 E _ IH|r e s k k1 k2 E _ IH|b x k k1 k2 E _ IH|p e i k k1 k2 E _ IH|b k k2 _ IH|k k2 _ IH]; intros HC; auto; apply IH; clear IH k2.
  - assert (NO : N.testbit (effective k) SETUID = false).
    { destruct (N.testbit (effective k) SETUID) eqn:TB; [|reflexivity]. exfalso. destruct HC as (_ & _ & _ & HE & _). apply HE, HR in TB. destruct TB as [TB _]. apply TB. reflexivity. }
    unfold setresuid, may_uid in E. assert (HC' := HC). destruct HC' as ((A1 & A2 & A3 & _) & _). rewrite NO, A1, A2, A3 in E. cbn in E.
    destruct (r =? uid) eqn:E1, (e =? uid) eqn:E2, (s =? uid) eqn:E3; cbn in E; try discriminate E. apply N.eqb_eq in E1, E2, E3. subst r e s.
    replace (with_uids uid uid uid k) with k in E by (rewrite <- (with_uids_same k) at 1; rewrite A1, A2, A3; reflexivity).
    rewrite confined_fixup in E by exact HC. injection E as <-. exact HC.
  - assert (NO : N.testbit (effective k) SETGID = false).
    { destruct (N.testbit (effective k) SETGID) eqn:TB; [|reflexivity]. exfalso. destruct HC as (_ & _ & _ & HE & _). apply HE, HR in TB. destruct TB as [_ TB]. apply TB. reflexivity. }
    unfold setresgid, may_gid in E. assert (HC' := HC). destruct HC' as ((_ & _ & _ & A1 & A2 & A3) & _). rewrite NO, A1, A2, A3 in E. cbn in E.
    destruct (r =? gid) eqn:E1, (e =? gid) eqn:E2, (s =? gid) eqn:E3; cbn in E; try discriminate E. apply N.eqb_eq in E1, E2, E3. subst r e s.
    replace (with_gids gid gid gid k) with k in E by (rewrite <- (with_gids_same k) at 1; rewrite A1, A2, A3; reflexivity). injection E as <-. exact HC.
  - assert (NO : N.testbit (effective k) SETGID = false).
    { destruct (N.testbit (effective k) SETGID) eqn:TB; [|reflexivity]. exfalso. destruct HC as (_ & _ & _ & HE & _). apply HE, HR in TB. destruct TB as [_ TB]. apply TB. reflexivity. }
    unfold setgroups in E. rewrite NO in E. discriminate E.
  - assert (SB : subset p (permitted k) = true /\ subset e p = true).
    { unfold capset in E. destruct (subset p (permitted k)); [|discriminate E]. destruct (subset e p); [|discriminate E]. auto. }
    destruct SB as [S1 S2]. rewrite subset_spec in S1, S2. apply capset_is in E. subst k1. destruct HC as (A1 & A2 & A3 & A4 & A5).
    split; [exact A1|]. split; [exact A2|]. cbn. split; [auto|]. split; [auto|]. intros cap H. unfold has in H. rewrite N.land_spec in H. apply andb_prop in H. apply A5, H.
  - destruct HC as ((A1 & A2 & A3 & A4 & A5 & A6) & A7 & A8 & A9 & A10). assert (HZ' := HZ). apply N.eqb_neq in HZ'.
    unfold exec. rewrite A1, A2, HZ'. cbn. unfold confined, runs_as. cbn. split; [auto 10|]. auto.
Qed.
End Forever.

Lemma init_irrevocable S o k0 uid gid t k : init S o k0 = (t, Some k) -> target S (o_conf o) k0 uid gid -> plain k0 -> s_caps S = true -> c_caps (o_conf o) <> CapsOff -> uid <> 0 ->
  forall k', calls k k' -> runs_as uid gid k' /\ supp k' = supp k /\ forall cap, has (permitted k') cap \/ has (effective k') cap -> retains (o_conf o) cap.
Proof.
  intros E T HP C D Z k' HC. destruct (init_identity _ _ _ _ _ E) as (u & g & T' & W1 & W2). destruct (target_unique _ _ _ _ _ _ _ T T') as [<- <-].
  destruct (init_caps _ _ _ _ _ E C D) as (P1 & P2 & _ & P4).
  assert (RU : runs_as uid gid k).
  { destruct (switches (o_conf o)) eqn:W; [apply W1, switches_spec, W|]. apply not_wants in W. specialize (W2 W). destruct HP as [(A1 & A2 & A3 & A4 & A5 & A6) _], W2 as (B1 & B2 & B3 & B4 & B5 & B6).
    assert (TT : uid = ruid k0 /\ gid = rgid k0).
    { apply not_wants in W. unfold target in T. unfold switches in W. destruct (c_user (o_conf o)), (c_group (o_conf o)); try discriminate W. exact T. }
    destruct TT as [-> ->]. unfold runs_as. repeat split; congruence. }
  assert (CF : confined (retains (o_conf o)) uid gid (supp k) k').
  { apply calls_confined with (k := k); [|exact Z|exact HC|].
    - intros cap H. apply retains_net in H. destruct H as [H|[H|H]]; subst cap; split; discriminate.
    - split; [exact RU|]. split; [reflexivity|]. split; [apply P1|]. split; [apply P2|]. intros cap H. rewrite P4 in H. exfalso. apply (has_0 cap H). }
  destruct CF as (F1 & F2 & F3 & F4 & _). split; [exact F1|]. split; [exact F2|]. intros cap [H|H]; auto.
Qed.
