(** Lemmas about privileges: sequences of steps, and the credentials at the start. *)
From Verif Require Import Base BufferModel MethodModel AddrModel LexModel ConfigModel OptionsModel PrivModel PrivSpec.
From Coq Require Import Lia ZifyBool ZifyN.
Local Open Scope N_scope.

(** * Sequences of steps *)

Definition leads (P : cred -> Prop) (m : steps) (T : event -> cred -> Prop) (Q : cred -> Prop) : Prop :=
  forall k t r, P k -> m k = (t, r) -> (forall e k', In (e, k') t -> T e k') /\ (forall k', r = Some k' -> Q k').
Lemma leads_then P m T Q n R : leads P m T Q -> leads Q n T R -> leads P (m >> n) T R.
Proof.
  intros HM HN k t r HP E. unfold andthen in E. destruct (m k) as [t1 [k1|]] eqn:EM; destruct (HM _ _ _ HP EM) as [T1 Q1].
  - destruct (n k1) as [t2 r2] eqn:EN. injection E as <- <-. destruct (HN _ _ _ (Q1 _ eq_refl) EN) as [T2 Q2]. split; [|exact Q2].
    intros e k' Hin. apply in_app_or in Hin. destruct Hin as [Hin|Hin]; [exact (T1 _ _ Hin)|exact (T2 _ _ Hin)].
  - injection E as <- <-. split; [exact T1|]. intros k' K. discriminate K.
Qed.
Lemma leads_weaken (P P' : cred -> Prop) m (T T' : event -> cred -> Prop) (Q Q' : cred -> Prop) :
  leads P m T Q -> (forall k, P' k -> P k) -> (forall e k, T e k -> T' e k) -> (forall k, Q k -> Q' k) -> leads P' m T' Q'.
Proof. intros H HP HT HQ k t r K E. destruct (H k t r (HP _ K) E) as [A B]. split; intros; [apply HT, A; assumption|apply HQ, B; assumption]. Qed.
Lemma leads_nothing (P : cred -> Prop) T : leads P nothing T P.
Proof. intros k t r HP E. injection E as <- <-. split; [intros e k' []|]. intros k' K. injection K as <-. exact HP. Qed.
Lemma leads_event (P : cred -> Prop) e (T : event -> cred -> Prop) : (forall k, P k -> T e k) -> leads P (event_ e) T P.
Proof.
  intros H k t r HP E. injection E as <- <-. split.
  - intros e' k' [K|[]]. injection K as <- <-. exact (H _ HP).
  - intros k' K. injection K as <-. exact HP.
Qed.
Lemma leads_attempt (P Q : cred -> Prop) f T : (forall k, P k -> match f k with Some k' => Q k' | None => Q k end) -> leads P (attempt f) T Q.
Proof.
  intros H k t r HP E. injection E as <- <-. split; [intros e k' []|]. intros k' K. injection K as <-. specialize (H _ HP). destruct (f k); exact H.
Qed.
Lemma leads_must (P Q : cred -> Prop) f T : (forall k k', P k -> f k = Some k' -> Q k') -> leads P (must f) T Q.
Proof. intros H k t r HP E. injection E as <- <-. split; [intros e k' []|]. intros k' K. exact (H _ _ HP K). Qed.
Lemma leads_require (P : cred -> Prop) f T : leads P (require f) T P.
Proof. intros k t r HP E. injection E as <- <-. split; [intros e k' []|]. intros k' K. destruct (f k); [|discriminate K]. injection K as <-. exact HP. Qed.
Lemma leads_if (P : cred -> Prop) (b : bool) m n T Q : (b = true -> leads P m T Q) -> (b = false -> leads P n T Q) -> leads P (if b then m else n) T Q.
Proof. destruct b; auto. Qed.
Lemma leads_peers (P : cred -> Prop) (f : peer_conf -> bool) (m : steps) (l : list peer_conf) T : leads P m T P -> leads P (fold_right (fun p (r : steps) => (if f p then m else nothing) >> r) nothing l) T P.
Proof. intros H. induction l as [|p l IH]; cbn; [apply leads_nothing|]. apply leads_then with (Q := P); [|exact IH]. destruct (f p); [exact H|apply leads_nothing]. Qed.

(** The events of a sequence *)
Definition shape (m : steps) (l : list event) : Prop := forall k t r, m k = (t, r) -> exists rest, l = map fst t ++ rest /\ (r <> None -> rest = []).
Lemma shape_then m n l1 l2 : shape m l1 -> shape n l2 -> shape (m >> n) (l1 ++ l2).
Proof.
  intros HM HN k t r E. unfold andthen in E. destruct (m k) as [t1 [k1|]] eqn:EM; destruct (HM _ _ _ EM) as (r1 & -> & R1).
  - destruct (n k1) as [t2 r2] eqn:EN. injection E as <- <-. destruct (HN _ _ _ EN) as (x & -> & R2). exists x. split; [|exact R2].
    rewrite R1, app_nil_r, map_app, <- app_assoc by discriminate. reflexivity.
  - injection E as <- <-. exists (r1 ++ l2). split; [rewrite app_assoc; reflexivity|]. intros K. contradiction.
Qed.
Lemma shape_nothing : shape nothing [].
Proof. intros k t r E. injection E as <- <-. exists []. split; reflexivity. Qed.
Lemma shape_event e : shape (event_ e) [e].
Proof. intros k t r E. injection E as <- <-. exists []. split; reflexivity. Qed.
Lemma shape_attempt f : shape (attempt f) [].
Proof. intros k t r E. injection E as <- <-. exists []. split; reflexivity. Qed.
Lemma shape_must f : shape (must f) [].
Proof. intros k t r E. injection E as <- <-. exists []. split; reflexivity. Qed.
Lemma shape_require f : shape (require f) [].
Proof. intros k t r E. injection E as <- <-. exists []. split; reflexivity. Qed.
Lemma shape_peers (f : peer_conf -> bool) (m : steps) l (ps : list peer_conf) : shape m l ->
  shape (fold_right (fun p (r : steps) => (if f p then m else nothing) >> r) nothing ps) (flat_map (fun p => if f p then l else []) ps).
Proof.
  intros H. induction ps as [|p ps IH]; cbn; [apply shape_nothing|]. apply shape_then; [|exact IH]. destruct (f p); [exact H|apply shape_nothing].
Qed.

(** * Credentials *)

Lemma fixup_ids old new : same_ids (fixup old new) new /\ supp (fixup old new) = supp new /\ keep (fixup old new) = keep new /\ bounding (fixup old new) = bounding new.
Proof. unfold fixup, same_ids. destruct (any_root old && negb (any_root new)), (keep new) eqn:K; cbv zeta; repeat (match goal with |- context [if ?b then _ else _] => destruct b end); cbn; repeat split; exact K || reflexivity. Qed.
Lemma setresuid_ids r e s k k' : setresuid r e s k = Some k' ->
  ruid k' = r /\ euid k' = e /\ suid k' = s /\ rgid k' = rgid k /\ egid k' = egid k /\ sgid k' = sgid k /\ supp k' = supp k /\ keep k' = keep k.
Proof.
  unfold setresuid. destruct (may_uid k r && may_uid k e && may_uid k s); [|discriminate]. intros E. injection E as <-.
  destruct (fixup_ids k (with_uids r e s k)) as ((A1 & A2 & A3 & A4 & A5 & A6) & A7 & A8 & _). rewrite A1, A2, A3, A4, A5, A6, A7, A8. cbn. repeat split; reflexivity.
Qed.
Lemma setresgid_is r e s k k' : setresgid r e s k = Some k' -> k' = with_gids r e s k.
Proof. unfold setresgid. destruct (may_gid k r && may_gid k e && may_gid k s); [|discriminate]. intros E. injection E as <-. reflexivity. Qed.
Lemma setgroups_is b l k k' : setgroups b l k = Some k' -> k' = with_groups l k.
Proof. unfold setgroups. destruct (N.testbit (effective k) SETGID && b); [|discriminate]. intros E. injection E as <-. reflexivity. Qed.
Lemma capset_is p e i k k' : capset p e i k = Some k' -> k' = with_caps p e i (N.land (ambient k) (N.land p i)) k.
Proof. unfold capset. destruct (subset p (permitted k) && subset e p && subset i (inheritable k)); [|discriminate]. intros E. injection E as <-. reflexivity. Qed.
Lemma subset_spec a b : subset a b = true <-> forall cap, has a cap -> has b cap.
Proof.
  unfold subset, has. rewrite N.eqb_eq. split.
  - intros E cap A. assert (K : N.testbit (N.ldiff a b) cap = false) by (rewrite E; apply N.bits_0). rewrite N.ldiff_spec, A in K. destruct (N.testbit b cap); [reflexivity|discriminate K].
  - intros H. apply N.bits_inj_0. intros n. rewrite N.ldiff_spec. destruct (N.testbit a n) eqn:A; [|reflexivity]. rewrite (H n A). reflexivity.
Qed.
Lemma has_lor a b cap : has (N.lor a b) cap <-> has a cap \/ has b cap.
Proof. unfold has. rewrite N.lor_spec. apply Bool.orb_true_iff. Qed.
Lemma has_bit b cap x : has (bit b cap) x <-> b = true /\ x = cap.
Proof.
  unfold has, bit. destruct b.
  - rewrite N.pow2_bits_eqb, N.eqb_eq. split; [intros ->; split; reflexivity|intros [_ ->]; reflexivity].
  - rewrite N.bits_0. split; [discriminate|intros [K _]; discriminate K].
Qed.
Lemma has_0 cap : ~ has 0 cap.
Proof. unfold has. rewrite N.bits_0. discriminate. Qed.

(** * What is retained *)

Lemma switches_spec c : switches c = true <-> wants_user c.
Proof.
  unfold switches, wants_user. destruct (c_user c), (c_group c); split; intros H; try reflexivity; try (left; discriminate); try (right; discriminate); try discriminate H.
  destruct H as [H|H]; contradiction.
Qed.
Lemma configure_target S c k uid gid gs : configure_user S c k = Some (uid, gid, gs) ->
  target S c k uid gid /\ gs = match c_user c with Some u => Some (s_list S u gid) | None => None end.
Proof.
  unfold configure_user, target. destruct (c_user c) as [u|].
  - destruct (s_user S u) as [[u1 g1]|] eqn:EU; [|discriminate]. destruct (c_group c) as [g|].
    + destruct (s_group S g) as [g2|]; [|discriminate]. intros E. injection E as <- <- <-. split; [split|]; [exists g1|..]; reflexivity.
    + intros E. injection E as <- <- <-. split; [split|]; [exists g1|exists u1|]; reflexivity.
  - destruct (c_group c) as [g|].
    + destruct (s_group S g) as [g2|]; [|discriminate]. intros E. injection E as <- <- <-. repeat split; reflexivity.
    + intros E. injection E as <- <- <-. repeat split; reflexivity.
Qed.
Lemma target_unique S c k u1 g1 u2 g2 : target S c k u1 g1 -> target S c k u2 g2 -> u1 = u2 /\ g1 = g2.
Proof.
  unfold target. intros [A1 A2] [B1 B2]. destruct (c_user c).
  - destruct A1 as [x A1], B1 as [y B1]. assert (u1 = u2) by congruence. split; [assumption|]. destruct (c_group c); [congruence|]. destruct A2, B2. congruence.
  - split; [congruence|]. destruct (c_group c); congruence.
Qed.
Lemma sock_default_spec c six : sock_default c six = true <-> has_socket c six.
Proof.
  unfold sock_default, has_socket. destruct (bind_default c six) as [b|].
  - destruct (ba_dynamic b) eqn:D; cbn; split; intros H; try reflexivity; try discriminate H.
    + destruct H as (x & E & F). injection E as <-. congruence.
    + exists b. split; [reflexivity|exact D].
  - split; [discriminate|]. intros (x & E & _). discriminate E.
Qed.
Lemma persistent_spec c : persistent_ifaces c = false <-> new_ifaces c.
Proof.
  unfold persistent_ifaces, new_ifaces, is_tap, has_dirs, allow_verify.
  assert (D : existsb (fun g : group_conf => negb match gc_dirs g with [] => true | _ => false end) (c_groups c) = true <-> exists g, In g (c_groups c) /\ gc_dirs g <> []).
  { rewrite existsb_exists. split; intros (g & A & B); exists g; (split; [exact A|]); destruct (gc_dirs g); try discriminate; try reflexivity. contradiction. }
  destruct (existsb _ _) eqn:EX.
  - assert (D' := proj1 D eq_refl). destruct (c_mode c); cbn; split; intros H; try discriminate H; try (destruct H; contradiction);
      try (split; [discriminate|right; left; exact D']); destruct (c_persist c); reflexivity.
  - assert (D' : ~ exists g, In g (c_groups c) /\ gc_dirs g <> []) by (intros K; apply D in K; discriminate K).
    destruct (c_mode c); cbn; [split; [discriminate|intros K; destruct K; contradiction]|..]; destruct (c_persist c), (c_verify c); cbn; split; intros H; try discriminate H; try reflexivity;
      try (split; [discriminate|]; first [left; reflexivity|right; right; discriminate]); destruct H as [_ [H|[H|H]]]; try discriminate H; contradiction.
Qed.
Lemma retained_spec c cap : has (retained c) cap <-> retains c cap.
Proof.
  unfold retained, retains. rewrite !has_lor, !has_bit. unfold need_net_admin, need_net_bind_service, need_net_raw.
  assert (F : is_force c = false <-> c_caps c <> CapsForce) by (unfold is_force; destruct (c_caps c); split; try discriminate; try reflexivity; intros H; contradiction).
  assert (RW : (negb (sock_default c false) && has_dev (bind_default c false) || negb (sock_default c true) && has_dev (bind_default c true) = true) <->
    exists six b, bind_default c six = Some b /\ ba_dynamic b = true /\ ba_dev b <> None).
  { assert (Q : forall six, negb (sock_default c six) && has_dev (bind_default c six) = true <-> exists b, bind_default c six = Some b /\ ba_dynamic b = true /\ ba_dev b <> None).
    { intros six. unfold sock_default, has_dev. destruct (bind_default c six) as [b|]; [|split; [discriminate|intros (b & K & _); discriminate K]].
      rewrite Bool.negb_involutive. split.
      - intros H. apply andb_prop in H. destruct H as [H1 H2]. exists b. split; [reflexivity|]. split; [exact H1|]. destruct (ba_dev b); discriminate.
      - intros (x & K & D & V). injection K as <-. rewrite D. destruct (ba_dev b); [reflexivity|contradiction]. }
    rewrite Bool.orb_true_iff, !Q. split.
    - intros [H|H]; [exists false|exists true]; exact H.
    - intros ([|] & H); [right|left]; exact H. }
  assert (NA : negb (persistent_ifaces c) && negb (is_force c) || negb (sock_default c false || sock_default c true) && negb (c_mark c =? 0) || c_offload c = true <->
    (new_ifaces c /\ c_caps c <> CapsForce) \/ (c_mark c <> 0 /\ ~ has_socket c false /\ ~ has_socket c true) \/ c_offload c = true).
  { rewrite <- persistent_spec, <- F, <- !sock_default_spec. rewrite <- N.eqb_neq.
    destruct (persistent_ifaces c), (is_force c), (sock_default c false), (sock_default c true), (c_mark c =? 0), (c_offload c); cbn; intuition discriminate. }
  rewrite NA. rewrite Bool.orb_true_iff, RW. tauto.
Qed.
