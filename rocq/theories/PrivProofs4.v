(** Lemmas about privileges: the events, capabilities that are not dropped, commands, and later operations. *)
From Verif Require Import Base BufferModel MethodModel AddrModel LexModel LexSpec ConfigModel ConfigSpec OptionsModel OptionsSpec OptionsProofs4 PrivModel PrivSpec PrivProofs PrivProofs2 PrivProofs3.
From Coq Require Import Lia ZifyBool ZifyN.
Local Open Scope N_scope.

Lemma early_spec c : early c = true <-> drops_early c.
Proof. unfold early, drops_early. destruct (c_caps c); split; try discriminate; auto; intros [K|K]; discriminate K. Qed.
Lemma not_early c : early c = false -> ~ drops_early c.
Proof. intros E K. apply early_spec in K. congruence. Qed.
Lemma tap_spec c : is_tap c = true <-> c_mode c = Tap.
Proof. unfold is_tap. destruct (c_mode c); split; try discriminate; auto. Qed.

Section Events.
Context (S : sys) (c : conf) (pid : bool) (uid gid : N) (gs : option (list N)) (k0 : cred) (HP : plain k0) (HU : ruid k0 = 0 \/ uid <> 0).

Lemma within_event l k : within S c uid gid k0 l k -> forall e, e = EvStatus \/ e = EvPid -> as_at_event S c k0 uid gid e k.
Proof.
  intros (A1 & A2 & A3 & A4 & _ & _ & _ & _ & A5 & A6 & A7) e He.
  assert (X : ruid k = ruid k0 /\ suid k = suid k0 /\ rgid k = rgid k0 /\ sgid k = sgid k0 /\
      (wants_user c -> (has (effective k0) SETGID -> egid k = gid) /\ (has (effective k0) SETUID -> euid k = uid)) /\ (~ wants_user c -> same_ids k k0)).
  { do 4 (split; [assumption|]). split.
    - intros W. apply switches_spec in W. split; [apply A6, W|apply A7, W].
    - intros W. apply not_wants in W. destruct (A5 W) as [B1 B2]. unfold same_ids. repeat split; assumption. }
  destruct He as [-> | ->]; exact X.
Qed.
Lemma set_user_switched T : leads (fun k => same_ids k k0) (set_user c uid gid) T (switched c k0 uid gid).
Proof.
  destruct (switches c) eqn:W.
  - apply leads_weaken with (1 := set_user_runs c uid gid T W); auto. intros k K. split; [auto|]. intros NW. apply not_wants in NW. congruence.
  - apply leads_weaken with (1 := set_user_same c uid gid k0 W T); auto. intros k K. split; [|auto]. intros WW. apply switches_spec in WW. congruence.
Qed.
Lemma drop_switched T : leads (fun k => same_ids k k0) (drop_caps S c uid gid) T (switched c k0 uid gid).
Proof. apply leads_then with (Q := switched c k0 uid gid); [apply set_user_switched|]. apply cap_drop_keeps. intros p e i a k H. exact H. Qed.

Lemma events_leads : leads (fun k => k = k0) (init_steps S c pid uid gid gs) (as_at_event S c k0 uid gid) (switched c k0 uid gid).
Proof.
  rewrite init_parts. apply head_leads with (M := start_any S k0) (uid := uid); try assumption.
  - intros e k He N1 N2 N3. destruct e; try contradiction; cbn [early_event] in He.
    + apply within_event with (l := supp k0); auto.
    + destruct He as (A & B & _ & _ & _ & _ & EN). split; [exact A|]. split; [exact B|exact EN].
    + destruct He as (A & B & _ & _ & _ & _ & EN). split; [exact A|]. split; [exact B|exact EN].
    + destruct He as (l & He). apply within_event with (l := l); auto.
    + destruct He as (l & A & _). exact A.
  - intros k TP (A & B & _ & _ & _ & _ & EN). apply tap_spec in TP. split.
    + intros _. split; [exact A|]. intros C H. apply EN; auto.
    + intros K. contradiction.
  - assert (G := groups_any S c gid gs k0 (as_at_event S c k0 uid gid)). apply leads_weaken with (1 := G); auto. intros k K. exists (supp k0). exact K.
  - intros k K. exact K.
  - intros l k _ _ k' K. exists l. exact K.
  - destruct (early c) eqn:EA.
    + assert (EA' := proj1 (early_spec c) EA).
      apply tail_leads with (Q := fun k => switched c k0 uid gid k /\ (s_caps S = true -> only_retained c k)).
      * unfold drop_early. rewrite EA. apply leads_weaken with (P := fun k => same_ids k k0) (T := fun e k => as_at_event S c k0 uid gid e k /\ as_at_event S c k0 uid gid e k)
          (Q := fun k => switched c k0 uid gid k /\ (s_caps S = true -> only_retained c k)).
        -- apply leads_and; [apply drop_switched|]. destruct (s_caps S) eqn:C.
           ++ apply leads_weaken with (1 := drop_retains S c uid gid (fun k => same_ids k k0) (as_at_event S c k0 uid gid) C); auto.
           ++ apply leads_weaken with (1 := drop_switched (as_at_event S c k0 uid gid)); auto. intros k _ K. discriminate K.
        -- intros k (l & A & _). exact A.
        -- intros e k [A _]. exact A.
        -- auto.
      * intros k [K1 K2]. split.
        -- split; [intros _; exact K1|]. intros N. contradiction.
        -- intros TP. split.
           ++ intros [TP'|N]; [|contradiction]. apply tap_spec in TP'. congruence.
           ++ intros _ _. split; [exact K1|]. intros C. destruct (K2 C) as (_ & R & _). rewrite R. apply retained_spec.
      * unfold drop_late. unfold early in EA. destruct (c_caps c); try discriminate EA; apply leads_weaken with (P := switched c k0 uid gid) (T := as_at_event S c k0 uid gid) (Q := switched c k0 uid gid); auto using leads_nothing; intros k K; apply K.
      * intros k K. exact K.
    + assert (EA' := not_early c EA). apply tail_leads with (Q := start_any S k0).
      * unfold drop_early. rewrite EA. apply leads_nothing.
      * intros k (l & A & _ & _ & _ & _ & _ & EN). split.
        -- split; [intros K; contradiction|]. intros _. exact A.
        -- intros TP. split; [|intros _ K; contradiction]. intros _. split; [exact A|]. intros C H. apply EN; auto.
      * unfold drop_late. unfold early in EA.
        assert (X : forall m, leads (fun k => same_ids k k0) m (as_at_event S c k0 uid gid) (switched c k0 uid gid) -> leads (start_any S k0) m (as_at_event S c k0 uid gid) (switched c k0 uid gid)).
        { intros m H. apply leads_weaken with (1 := H); auto. intros k (l & A & _). exact A. }
        destruct (c_caps c); try discriminate EA; apply X; [apply set_user_switched|apply drop_switched].
      * intros k K. exact K.
Qed.
End Events.

Lemma init_events S o k0 uid gid t r : init S o k0 = (t, r) -> target S (o_conf o) k0 uid gid -> plain k0 -> ruid k0 = 0 \/ uid <> 0 ->
  forall e k, In (e, k) t -> as_at_event S (o_conf o) k0 uid gid e k.
Proof.
  intros E T HP HU. destruct (init_is _ _ _ _ _ E) as [[-> ->]|(u & g & T' & E')]; [intros e k []|].
  destruct (target_unique _ _ _ _ _ _ _ T T') as [<- <-]. exact (proj1 (events_leads S (o_conf o) (opid o) uid gid _ k0 HP HU k0 _ _ eq_refl E')).
Qed.

(** * Capabilities that are not dropped, and commands *)

Section Off.
Context (S : sys) (c : conf) (pid : bool) (uid gid : N) (gs : option (list N)) (k0 : cred) (HP : plain k0) (HR : ruid k0 = 0) (HZ : uid <> 0).
Lemma switches_any : switches c = true \/ switches c = false.
Proof. destruct (switches c); auto. Qed.
(** From root to the user *)
Lemma set_user_caps T : switches c = true -> leads (start_any S k0) (set_user c uid gid) T
  (fun k => ambient k = 0 /\ effective k = 0 /\ (s_caps S = true -> permitted k = permitted k0)).
Proof.
  intros W. unfold set_user. rewrite W. apply leads_then with (Q := fun k => ruid k = 0 /\ euid k = 0 /\ permitted k = permitted k0 /\ (s_caps S = true -> keep k = true)).
  - apply leads_must. intros k k' (l & (A1 & A2 & _) & _ & A3 & A4 & _) E. rewrite (setresgid_is _ _ _ _ _ E). cbn. destruct HP as [(_ & B & _) _]. repeat split; congruence || assumption.
  - apply leads_must. intros k k' (A1 & A2 & A3 & A4) E. unfold setresuid in E. destruct (may_uid k uid && may_uid k uid && may_uid k uid); [|discriminate E]. injection E as <-.
    unfold fixup, any_root. cbn [ruid euid suid with_uids keep]. assert (Z := HZ). apply N.eqb_neq in Z. rewrite A1, A2, Z. cbn [N.eqb orb andb negb].
    destruct (keep k) eqn:K; cbn; rewrite Z; cbn; repeat split; auto. intros C. specialize (A4 C). discriminate A4.
Qed.
Lemma head_any_start m Q : leads (start_any S k0) m anytime Q -> leads (fun k => k = k0) (head_steps S c pid uid gid gs m) anytime Q.
Proof.
  intros H. apply head_leads with (M := start_any S k0) (uid := uid); auto; try (intros; exact Logic.I).
  - apply leads_weaken with (1 := groups_any S c gid gs k0 anytime); auto. intros k K. exists (supp k0). exact K.
  - intros l k _ _ k' K. exists l. exact K.
Qed.
Lemma init_off : switches c = true -> c_caps c = CapsOff ->
  leads (fun k => k = k0) (init_steps S c pid uid gid gs) anytime (fun k => ambient k = 0 /\ effective k = 0 /\ (s_caps S = true -> permitted k = permitted k0)).
Proof.
  intros W C. rewrite init_parts. apply head_any_start. apply tail_leads with (Q := start_any S k0).
  - unfold drop_early, early. rewrite C. apply leads_nothing.
  - intros; repeat split; exact Logic.I.
  - unfold drop_late. rewrite C. apply set_user_caps, W.
  - intros; exact Logic.I.
Qed.
Lemma drop_ambient T : switches c = true -> leads (start_any S k0) (drop_caps S c uid gid) T (fun k => ambient k = 0).
Proof.
  intros W. apply leads_then with (Q := fun k => ambient k = 0).
  - apply leads_weaken with (1 := set_user_caps T W); auto. intros k K. apply K.
  - unfold cap_drop. destruct (s_caps S); [|apply leads_nothing]. apply leads_must. intros k k' A E. rewrite (capset_is _ _ _ _ _ E). cbn. rewrite A. reflexivity.
Qed.
Lemma init_ambient : switches c = true -> leads (fun k => k = k0) (init_steps S c pid uid gid gs) anytime (fun k => ambient k = 0).
Proof.
  intros W. rewrite init_parts. apply head_any_start. destruct (early c) eqn:EA.
  - apply tail_leads with (Q := fun k => ambient k = 0).
    + unfold drop_early. rewrite EA. apply drop_ambient, W.
    + intros; repeat split; exact Logic.I.
    + unfold drop_late. unfold early in EA. destruct (c_caps c); try discriminate EA; apply leads_nothing.
    + intros; exact Logic.I.
  - apply tail_leads with (Q := start_any S k0).
    + unfold drop_early. rewrite EA. apply leads_nothing.
    + intros; repeat split; exact Logic.I.
    + unfold drop_late. unfold early in EA. destruct (c_caps c); try discriminate EA; [|apply drop_ambient, W].
      apply leads_weaken with (1 := set_user_caps anytime W); auto. intros k K. apply K.
    + intros; exact Logic.I.
Qed.
End Off.
Lemma root_wants S c k0 uid gid : target S c k0 uid gid -> ruid k0 = 0 -> uid <> 0 -> switches c = true.
Proof. intros [A _] R Z. unfold switches. destruct (c_user c); [reflexivity|]. congruence. Qed.
Lemma init_not_dropped S o k0 uid gid t k : init S o k0 = (t, Some k) -> target S (o_conf o) k0 uid gid -> plain k0 -> ruid k0 = 0 -> uid <> 0 ->
  s_caps S = true -> c_caps (o_conf o) = CapsOff -> permitted k = permitted k0 /\ effective k = 0.
Proof.
  intros E T HP HR HZ C D. destruct (init_is _ _ _ _ _ E) as [[_ K]|(u & g & T' & E')]; [discriminate K|]. destruct (target_unique _ _ _ _ _ _ _ T T') as [<- <-].
  destruct (proj2 (init_off S (o_conf o) (opid o) uid gid _ k0 HP HR HZ (root_wants _ _ _ _ _ T HR HZ) D k0 _ _ eq_refl E') _ eq_refl) as (_ & A & B). auto.
Qed.
Lemma init_commands S o k0 uid gid t k : init S o k0 = (t, Some k) -> target S (o_conf o) k0 uid gid -> plain k0 -> uid <> 0 ->
  ruid k0 = 0 \/ (s_caps S = true /\ c_caps (o_conf o) <> CapsOff) -> runs_as uid gid (exec k) /\ permitted (exec k) = 0 /\ effective (exec k) = 0.
Proof.
  intros E T HP HZ H.
  assert (A : ambient k = 0).
  { destruct H as [HR|[C D]]; [|exact (proj2 (proj2 (proj2 (init_caps _ _ _ _ _ E C D))))].
    destruct (init_is _ _ _ _ _ E) as [[_ K]|(u & g & T' & E')]; [discriminate K|]. destruct (target_unique _ _ _ _ _ _ _ T T') as [<- <-].
    exact (proj2 (init_ambient S (o_conf o) (opid o) uid gid _ k0 HP HR HZ (root_wants _ _ _ _ _ T HR HZ) k0 _ _ eq_refl E') _ eq_refl). }
  destruct (init_identity _ _ _ _ _ E) as (u & g & T' & W1 & W2). destruct (target_unique _ _ _ _ _ _ _ T T') as [<- <-].
  assert (RU : runs_as uid gid k).
  { destruct (switches (o_conf o)) eqn:W; [apply W1, switches_spec, W|]. assert (W' := proj2 (not_wants _) W). specialize (W2 W'). destruct HP as [(A1 & A2 & A3 & A4 & A5 & A6) _], W2 as (B1 & B2 & B3 & B4 & B5 & B6).
    assert (TT : uid = ruid k0 /\ gid = rgid k0) by (unfold target in T; unfold switches in W; destruct (c_user (o_conf o)), (c_group (o_conf o)); try discriminate W; exact T).
    destruct TT as [-> ->]. unfold runs_as. repeat split; congruence. }
  destruct RU as (A1 & A2 & A3 & A4 & A5 & A6). apply N.eqb_neq in HZ. unfold exec. rewrite A1, A2, HZ. cbn. rewrite A. unfold runs_as. cbn. split; [auto 10|]. auto.
Qed.

(** * Later operations *)

Lemma binds_port E l b : In b (binds E l) -> ba_dynamic b = true -> port_number (ba_addr b) = 0.
Proof.
  intros Hin D. unfold binds in Hin. apply in_flat_map in Hin. destruct Hin as (s & _ & Hin).
  assert (X : forall h p dev d, In b (binds_of E h p dev d) -> port_number (ba_addr b) = 0).
  { intros h p dev d K. unfold binds_of in K. apply in_map_iff in K. destruct K as (a & <- & Ha). cbn in D. destruct p as [[w n]|]; [discriminate D|]. cbn [ba_addr].
    unfold hosts, inet6, port_bytes in Ha. destruct h.
    - destruct Ha as [<-|[]]. reflexivity.
    - destruct (is_v4mapped a0); destruct Ha as [<-|[]]; reflexivity.
    - destruct (b_multiaf (e_build E)); [destruct Ha as [<-|[]]; reflexivity|]. destruct Ha as [<-|[<-|[]]]; reflexivity. }
  destruct s; try contradiction Hin; eapply X; exact Hin.
Qed.
Lemma configure_port E B cwd args o six b : configure E B cwd args = Ok (Run o) -> bind_default (o_conf o) six = Some b -> ba_dynamic b = true -> port_number (ba_addr b) = 0.
Proof.
  intros HC HB D. apply line_meaning in HC. destruct HC as (oes & o0 & _ & ST & ->).
  assert (EB : c_binds (o_conf (with_log o0)) = c_binds (o_conf o0)).
  { unfold with_log. destruct (c_stderr (o_conf o0)), (c_syslog (o_conf o0)); reflexivity. }
  destruct ST as [(c & HD & EC) _ _ _ _ _ _ _]. unfold bind_default in HB. rewrite EB, EC in HB.
  assert (EB2 : forall i x, c_binds (set_c_ident i x) = c_binds x) by reflexivity.
  rewrite EB2, (d_binds _ _ _ HD), rev_involutive in HB.
  destruct (if six then _ else _) as [i|]; [|discriminate HB]. apply nth_error_In in HB. exact (binds_port _ _ _ HB D).
Qed.

Lemma init_sufficient E B cwd args S o k0 t k : configure E B cwd args = Ok (Run o) -> init S o k0 = (t, Some k) -> s_caps S = true -> c_caps (o_conf o) <> CapsOff ->
  forall (l : later (o_conf o)) cap, happens (o_conf o) l -> requires (o_conf o) l cap -> ~ mark_gap (o_conf o) l -> (l = NewIface -> c_caps (o_conf o) <> CapsForce) -> has (effective k) cap.
Proof.
  intros HC HI C D l cap HH HR HG HF. apply (proj1 (proj2 (init_caps _ _ _ _ _ HI C D))). destruct l as [|six b]; cbn in HH, HR, HG.
  - left. split; [exact HR|]. left. split; [exact HH|apply HF; reflexivity].
  - destruct HH as (NS & EB & NB). assert (DY : forall x, b = Some x -> ba_dynamic x = true).
    { intros x EX. destruct (ba_dynamic x) eqn:DX; [reflexivity|]. exfalso. apply NS. exists x. split; [congruence|exact DX]. }
    destruct HR as [[-> M]|(x & EX & [(-> & DV & _)|(-> & PT)])].
    + left. split; [reflexivity|]. right. left. split; [exact M|]. assert (NS2 : ~ has_socket (o_conf o) (negb six)) by (intros K; apply HG; split; assumption).
      destruct six; split; assumption.
    + right. right. split; [reflexivity|]. left. exists six, x. split; [congruence|]. split; [apply DY, EX|exact DV].
    + exfalso. assert (P0 : port_number (ba_addr x) = 0) by (eapply configure_port; [exact HC|rewrite <- EB; exact EX|apply DY, EX]). lia.
Qed.
