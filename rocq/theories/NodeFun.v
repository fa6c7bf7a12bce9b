(** The functions of the node model as steps that preserve the invariant, up to
    giving addresses to peers *)
From Verif Require Import Base BufferModel NonceModel MethodModel HandshakeModel NodeModel NodeSteps NodeWf NodeInv NodeOwn.
From Coq Require Import Lia ZifyBool ZifyNat ZifyN Sorted.
Local Open Scope Z_scope.

(** which steps may happen: no resets; one peer may be reset; (a packet or the task of one peer); all peers may be reset; everything that does not need a
    packet of a peer; a packet of one peer was received; the task of one peer runs; everything *)
Definition no : N -> bool := fun _ => false.
Definition all : N -> bool := fun _ => true.
Definition fq : flags := mk_flags false false no no no no no no false.
Definition fr (q : N) : flags := mk_flags false false (N.eqb q) no no no no no false.
Definition fv (q : N) : flags := mk_flags false false no no no (N.eqb q) no no false.
Definition fk (q : N) : flags := mk_flags false false no no no no (N.eqb q) no false.
Definition fa : flags := mk_flags false false all no no no no no false.
Definition fc : flags := mk_flags false true all no no no no no false.
Definition fx (q : N) : flags := mk_flags false false all no no (N.eqb q) no no false.
Definition ft (q : N) : flags := mk_flags false true all no no no (N.eqb q) no false.
Definition ff : flags := mk_flags false true all all all all no all true.
Definition fp (r : N -> bool) : flags := mk_flags false false no no no no no r false.
Definition fg : flags := mk_flags false true all no no no no all true.

Ltac fle := intros; repeat split; try discriminate; cbn; trivial.
Lemma fle_fq : forall fl, fle fq fl.
Proof. fle. Qed.
Lemma fle_fr_fc : forall q, fle (fr q) fc.
Proof. fle. Qed.
Lemma fle_fr_fx : forall q r, fle (fr q) (fx r).
Proof. fle. Qed.
Lemma fle_fr_ft : forall q r, fle (fr q) (ft r).
Proof. fle. Qed.
Lemma fle_fr_ff : forall q, fle (fr q) ff.
Proof. fle. Qed.
Lemma fle_fc_ff : fle fc ff.
Proof. fle. Qed.
Lemma fle_fa_fx : forall q, fle fa (fx q).
Proof. fle. Qed.
Lemma fle_fa_fc : fle fa fc.
Proof. fle. Qed.
Lemma fle_fa_ft : forall q, fle fa (ft q).
Proof. fle. Qed.
Lemma fle_fa_ff : fle fa ff.
Proof. fle. Qed.
Lemma fle_fr_fa : forall q, fle (fr q) fa.
Proof. fle. Qed.
Lemma fle_fc_ft : forall q, fle fc (ft q).
Proof. fle. Qed.
Lemma fle_fv_fx : forall q, fle (fv q) (fx q).
Proof. fle. Qed.
Lemma fle_fk_ft : forall q, fle (fk q) (ft q).
Proof. fle. Qed.
Lemma fle_fx_ff : forall q, fle (fx q) ff.
Proof. fle. Qed.
Lemma fle_fc_fg : fle fc fg.
Proof. fle. Qed.
Lemma fle_fp_fg : forall r, fle (fp r) fg.
Proof. fle. Qed.
Lemma fle_fp : forall r, fle (fp r) (fp all).
Proof. fle. Qed.
Lemma fle_fg_ff : fle fg ff.
Proof. fle. Qed.
Lemma fle_refl : forall fl, fle fl fl.
Proof. fle. Qed.
#[global] Hint Resolve fle_fq fle_fr_fc fle_fr_fx fle_fr_ft fle_fr_ff fle_fc_ff fle_fa_fx fle_fa_fc fle_fa_ft fle_fa_ff fle_fr_fa fle_fc_ft fle_fv_fx fle_fk_ft fle_fx_ff fle_fc_fg fle_fp_fg fle_fp fle_fg_ff fle_refl : fle.

(** ** What is left alone *)

(** the other peers, the handshake keys and the number of peers ever added *)
Definition oth (pid : N) (n n' : node) : Prop := forall q, q <> pid -> find_id (n_peers n') q = find_id (n_peers n) q.
Definition kc (n n' : node) : Prop := n_cur n' = n_cur n /\ n_prev n' = n_prev n /\ n_next_id n' = n_next_id n /\ n_now n' = n_now n.
Definition loc (pid : N) (n n' : node) : Prop := oth pid n n' /\ kc n n'.

Lemma loc_refl : forall pid n, loc pid n n.
Proof. intros pid n. split; [intros q _; reflexivity | repeat split]. Qed.
Lemma loc_trans : forall pid n n1 n2, loc pid n n1 -> loc pid n1 n2 -> loc pid n n2.
Proof.
  intros pid n n1 n2 [O1 (A1 & B1 & C1 & D1)] [O2 (A2 & B2 & C2 & D2)]. split.
  - intros q Hq. rewrite (O2 q Hq). exact (O1 q Hq).
  - repeat split; congruence.
Qed.
Lemma loc_wr : forall pid f x n n', wr pid f n = Ok (x, n') -> keeps_id f -> loc pid n n'.
Proof.
  intros pid f x n n' H Hk. apply wr_ok in H. destruct H as (p & Hf & ->). split; [|repeat split]. intros q Hq.
  cbn [n_peers set_n_peers]. rewrite find_id_upd by exact Hk. destruct (N.eqb_spec q pid); [congruence | reflexivity].
Qed.
Lemma loc_same : forall pid n n', n_peers n' = n_peers n -> kc n n' -> loc pid n n'.
Proof. intros pid n n' E K. split; [intros q _; rewrite E; reflexivity | exact K]. Qed.
Lemma loc_orc : forall pid n n', (exists l, n' = set_n_orc l n) -> loc pid n n'.
Proof. intros pid n n' [l ->]. apply loc_same; [reflexivity | repeat split]. Qed.
Lemma loc_emit : forall pid o x n n', emit o n = Ok (x, n') -> loc pid n n'.
Proof. intros pid o x n n' H. apply emit_ok in H. subst. apply loc_same; [reflexivity | repeat split]. Qed.
Create HintDb loc.
#[global] Hint Resolve loc_refl loc_orc : loc.

Ltac lw := eapply loc_wr; [eassumption | intros ?; try reflexivity].
(** chain the facts about the computations in the context *)
Ltac lchain :=
  repeat match goal with
  | |- loc _ ?n ?n => apply loc_refl
  | H : _ ?n = Ok (_, ?m) |- loc ?pid ?n _ =>
      apply (loc_trans pid n m); [solve [eauto 4 with loc | lw] |]; clear H
  end.
Ltac kid := match goal with |- p_id (match ?x with _ => _ end) = _ => destruct x; kid | |- p_id (if ?x then _ else _) = _ => destruct x; kid | _ => reflexivity end.

Lemma loc_flip : forall pid x n n', flip n = Ok (x, n') -> loc pid n n'.
Proof. intros pid x n n' H. apply loc_orc. eapply flip_same. exact H. Qed.
Lemma loc_pop : forall pid x n n', pop n = Ok (x, n') -> loc pid n n'.
Proof. intros pid x n n' H. apply loc_orc. eapply pop_same. exact H. Qed.
Lemma loc_rand : forall pid lo hi x n n', rand lo hi n = Ok (x, n') -> loc pid n n'.
Proof. intros pid lo hi x n n' H. apply loc_orc. eapply rand_same. exact H. Qed.
Lemma loc_default_rand : forall pid x n n', handshake_default_rand n = Ok (x, n') -> loc pid n n'.
Proof. intros pid x n n' H. apply loc_orc. eapply default_rand_same. exact H. Qed.
#[global] Hint Resolve loc_flip loc_pop loc_rand loc_default_rand loc_emit : loc.

Lemma loc_schedule_peer_task : forall pid x n n', schedule_peer_task pid n = Ok (x, n') -> loc pid n n'.
Proof. intros pid x n n' H. unfold schedule_peer_task in H. lw. kid. Qed.
#[global] Hint Resolve loc_schedule_peer_task : loc.
Lemma loc_set_next_handshake : forall pid d x n n', set_next_handshake pid d n = Ok (x, n') -> loc pid n n'.
Proof. intros pid d x n n' H. unfold set_next_handshake in H. minv. lw. Qed.
#[global] Hint Resolve loc_set_next_handshake : loc.
Lemma loc_schedule_handshake : forall pid d x n n', schedule_handshake pid d n = Ok (x, n') -> loc pid n n'.
Proof. intros pid d x n n' H. unfold schedule_handshake in H. minv. lchain. Qed.
#[global] Hint Resolve loc_schedule_handshake : loc.
Lemma loc_free_socket : forall pid x n n', free_socket pid n = Ok (x, n') -> loc pid n n'.
Proof. intros pid x n n' H. unfold free_socket in H. minv; lchain. Qed.
#[global] Hint Resolve loc_free_socket : loc.
Lemma loc_reset_peer : forall P pid x n n', reset_peer P pid n = Ok (x, n') -> loc pid n n'.
Proof.
  intros P pid x n n' H. apply reset_peer_ok in H. destruct H as (p & f & Hf & _ & Hk & ->). split.
  - intros q Hq. cbn [n_peers set_n_peers]. rewrite find_id_upd by exact Hk. destruct (N.eqb_spec q pid); [congruence | reflexivity].
  - destruct (is_established p); repeat split.
Qed.
#[global] Hint Resolve loc_reset_peer : loc.
Lemma loc_init_handshake : forall P pid x n n', init_handshake P pid n = Ok (x, n') -> loc pid n n'.
Proof. intros P pid x n n' H. unfold init_handshake in H. minv; lchain. Qed.
#[global] Hint Resolve loc_init_handshake : loc.
Lemma loc_rd_remote : forall pid i x n n', rd_remote pid i n = Ok (x, n') -> loc pid n n'.
Proof. intros pid i x n n' H. apply rd_remote_ok in H. destruct H as [-> _]. apply loc_refl. Qed.
#[global] Hint Resolve loc_rd_remote : loc.
Lemma loc_resolving : forall pid f x n n', modn (fun n => set_n_resolving (f n) n) n = Ok (x, n') -> loc pid n n'.
Proof. intros pid f x n n' H. apply modn_ok in H. subst. apply loc_same; [reflexivity | repeat split]. Qed.
Lemma loc_resolve_peer : forall pid i x n n', resolve_peer pid i n = Ok (x, n') -> loc pid n n'.
Proof.
  intros pid i x n n' H. unfold resolve_peer in H. minv; lchain.
  match goal with H : modn _ _ = Ok _ |- _ => exact (loc_resolving _ _ _ _ _ H) end.
Qed.
#[global] Hint Resolve loc_resolve_peer : loc.
Lemma loc_setup_peer : forall P pid x n n', setup_peer P pid n = Ok (x, n') -> loc pid n n'.
Proof.
  intros P pid x n n' H. unfold setup_peer in H.
  bind H as now m H1. apply gets_ok in H1. destruct H1 as [-> ->].
  bind H as u m1 H1. apply loc_wr in H1; [|intros p; reflexivity]. apply (loc_trans _ _ _ _ H1). clear H1.
  minv; lchain.
Qed.
#[global] Hint Resolve loc_setup_peer : loc.
Lemma loc_peer_reset : forall P pid x n n', peer_reset P pid n = Ok (x, n') -> loc pid n n'.
Proof. intros P pid x n n' H. unfold peer_reset in H. minv; lchain. Qed.
#[global] Hint Resolve loc_peer_reset : loc.
Lemma loc_reset_peer_address : forall P pid x n n', reset_peer_address P pid n = Ok (x, n') -> loc pid n n'.
Proof. intros P pid x n n' H. unfold reset_peer_address in H. minv; lchain. Qed.
#[global] Hint Resolve loc_reset_peer_address : loc.

(** ** Steps that lead to a node with the invariant again *)
Definition to (P : params) (ev : event) (fl : flags) (n n' : node) : Prop := (steps P ev fl n n' /\ (f_rl fl = false -> sf n n')) /\ inv P n'.
Lemma to_steps : forall P ev fl n n', to P ev fl n n' -> steps P ev fl n n'.
Proof. intros P ev fl n n' [[H _] _]. exact H. Qed.
Lemma to_mono : forall P ev a b n n', fle a b -> to P ev a n n' -> to P ev b n n'.
Proof. intros P ev a b n n' Hle [[H F] I]. split; [split; [eapply steps_mono; eassumption | intros E; apply F; destruct (f_rl a) eqn:Ea; [|reflexivity]; destruct Hle as [Hle _]; specialize (Hle Ea); congruence] | exact I]. Qed.
Lemma to_trans : forall P ev fl n n1 n2, to P ev fl n n1 -> to P ev fl n1 n2 -> to P ev fl n n2.
Proof. intros P ev fl n n1 n2 [[H1 F1] _] [[H2 F2] I]. split; [split; [eapply steps_trans; eassumption | intros E; eapply sf_trans; [exact (F1 E) | exact (F2 E)]] | exact I]. Qed.
Lemma to_refl : forall P ev fl n, inv P n -> to P ev fl n n.
Proof. intros P ev fl n I. split; [split; [apply steps_refl | intros _; apply sf_refl] | exact I]. Qed.
Lemma to_intro : forall P ev fl n n', steps P ev fl n n' -> f_cl fl = false -> f_rl fl = false -> inv P n -> inv P n' -> to P ev fl n n'.
Proof. intros P ev fl n n' H Hc Hr I I'. split; [split; [exact H | intros _; eapply sf_steps; [exact H | exact Hc | exact Hr | apply I]] | exact I']. Qed.
Lemma to_quiet : forall P ev fl n n', steps P ev fq n n' -> inv P n -> to P ev fl n n'.
Proof.
  intros P ev fl n n' H I. apply to_mono with fq; [apply fle_fq|]. apply to_intro; [exact H | reflexivity | reflexivity | exact I|].
  apply (inv_quiet _ _ _ _ _ H); [|exact I]. split; [reflexivity | intros q; reflexivity].
Qed.
Lemma act_en : forall P n pid, inv P n -> en pid n -> act pid n.
Proof. intros P n pid [_ A] E p Hp. apply (A pid p Hp). exact (E p Hp). Qed.
Lemma to_en : forall P ev fl n n' pid, to P ev fl n n' -> f_rl fl = false -> inv P n -> en pid n -> en pid n'.
Proof. intros P ev fl n n' pid [[H _] _] Hrl [I _] E. exact (en_steps _ _ _ _ _ _ H Hrl I E). Qed.

Section Fun.
Variables (P : params) (ev : event).
Notation Inv := (inv P).
Notation To := (to P ev).
Notation St := (steps P ev).

(** ** Resetting *)
Lemma setup_alive : forall pid x n n', setup_peer P pid n = Ok (x, n') -> inv0 P n ->
  (forall p, find_id (n_peers n) pid = Some p -> p_state p = Inactive) -> alive_at pid n'.
Proof.
  intros pid x n n' H I Hi. pose proof H as H0. eapply (setup_peer_steps P ev fq) in H; [|exact Hi]. destruct H as (S & Ha & Hd).
  intros p Hp. split; [exact (Ha p Hp)|]. intros Hact.
  destruct (find_id (n_peers n) pid) as [p0|] eqn:E0.
  - destruct (is_enabled p0) eqn:E1.
    + eapply (en_steps P ev fq n n' pid S eq_refl I); [|exact Hp]. intros p1 Hp1. congruence.
    + exfalso. apply Hact. apply (Hd (ex_intro _ p0 (conj eq_refl E1)) p Hp).
  - exfalso. unfold setup_peer in H0. bind H0 as now m H1. apply gets_ok in H1. destruct H1 as [-> ->].
    bind H0 as u m H1. apply wr_ok in H1. destruct H1 as (p1 & Hp1 & _). congruence.
Qed.

Lemma peer_reset_alive : forall pid x n n', peer_reset P pid n = Ok (x, n') -> inv0 P n -> alive_at pid n'.
Proof.
  intros pid x n n' H I. unfold peer_reset in H.
  bind H as p m H1. apply rd_ok in H1. destruct H1 as [Hf ->]. bind H as u m1 H1.
  assert (Hr : reset_peer P pid n = Ok (u, m1) -> inv0 P m1 /\ forall q, find_id (n_peers m1) pid = Some q -> p_state q = Inactive).
  { intros Hr. split.
    - eapply inv0_steps; [|exact I]. eapply (reset_peer_steps P ev (fr pid)); [exact Hr | apply N.eqb_refl].
    - intros q Hq. apply reset_peer_after in Hr. destruct Hr as (p0 & _ & E). rewrite E in Hq. injection Hq as <-. apply reset_fn_fields. }
  assert (A : inv0 P m1 /\ forall q, find_id (n_peers m1) pid = Some q -> p_state q = Inactive).
  { destruct (p_state p) eqn:Es; try (apply Hr; exact H1). apply ret_ok in H1. destruct H1 as [_ ->]. split; [exact I|].
    intros q Hq. congruence. }
  eapply setup_alive; [exact H | apply A | apply A].
Qed.

Lemma fr_alive : forall pid n n', St (fr pid) n n' -> Inv n -> alive_at pid n' -> To (fr pid) n n'.
Proof.
  intros pid n n' S [I A] Hp. apply to_intro; [exact S | reflexivity | reflexivity | constructor; assumption|]. constructor; [eapply inv0_steps; eassumption|]. intros q.
  destruct (N.eq_dec q pid) as [->|E]; [exact Hp|]. eapply alive_steps; [exact S | reflexivity | | exact I | apply A].
  cbn. apply N.eqb_neq. congruence.
Qed.

Lemma peer_reset_to : forall pid x n n', peer_reset P pid n = Ok (x, n') -> Inv n -> To (fr pid) n n'.
Proof.
  intros pid x n n' H I. apply fr_alive; [|exact I|].
  - eapply peer_reset_steps; [exact H | apply N.eqb_refl].
  - eapply peer_reset_alive; [exact H | apply I].
Qed.
Lemma peer_delete_gone : forall pid x n n', peer_delete P pid n = Ok (x, n') -> find_id (n_peers n') pid = None.
Proof. intros pid x n n' H. unfold peer_delete in H. bind H as u m H1. apply modn_ok in H. subst. apply find_filter_gone. Qed.
Lemma peer_delete_to : forall pid x n n', peer_delete P pid n = Ok (x, n') -> Inv n ->
  (forall p, find_id (n_peers n) pid = Some p -> is_dynamic p = true) -> To (fr pid) n n'.
Proof.
  intros pid x n n' H I Hd. apply fr_alive; [|exact I|].
  - eapply peer_delete_steps; [exact H | apply N.eqb_refl | right; exact Hd].
  - intros p Hp. rewrite (peer_delete_gone _ _ _ _ H) in Hp. discriminate.
Qed.
Lemma reset_peer_address_to : forall pid x n n', reset_peer_address P pid n = Ok (x, n') -> Inv n -> To (fr pid) n n'.
Proof.
  intros pid x n n' H I. unfold reset_peer_address in H. bind H as p m H1. apply rd_ok in H1. destruct H1 as [Hf ->].
  destruct (is_established p) eqn:E; [eapply peer_reset_to; eassumption|]. apply to_quiet; [|exact I].
  eapply wr_steps; [exact H|]. intros q Hq. apply ps_addr_none. congruence.
Qed.

Lemma peer_reset_unest : forall pid x n n', peer_reset P pid n = Ok (x, n') -> inv0 P n -> unest pid n'.
Proof.
  intros pid x n n' H I. unfold peer_reset in H.
  bind H as p m H1. apply rd_ok in H1. destruct H1 as [Hf ->]. bind H as u m1 H1.
  assert (Hr : reset_peer P pid n = Ok (u, m1) -> inv0 P m1 /\ forall q, find_id (n_peers m1) pid = Some q -> p_state q = Inactive).
  { intros Hr. split.
    - eapply inv0_steps; [|exact I]. eapply (reset_peer_steps P ev (fr pid)); [exact Hr | apply N.eqb_refl].
    - intros q Hq. apply reset_peer_after in Hr. destruct Hr as (p0 & _ & E). rewrite E in Hq. injection Hq as <-. apply reset_fn_fields. }
  assert (A : inv0 P m1 /\ forall q, find_id (n_peers m1) pid = Some q -> p_state q = Inactive).
  { destruct (p_state p) eqn:Es; try (apply Hr; exact H1). apply ret_ok in H1. destruct H1 as [_ ->]. split; [exact I|].
    intros q Hq. congruence. }
  destruct A as [I1 Hi]. eapply (setup_peer_steps P ev fq) in H; [|exact Hi]. destruct H as [S _].
  eapply unest_steps; [exact S | reflexivity | exact I1|]. intros q Hq. apply is_est_false. rewrite (Hi q Hq). discriminate.
Qed.

(** ** Addresses *)

Lemma reset_peer_address_none : forall pid x n n' p', reset_peer_address P pid n = Ok (x, n') -> inv0 P n ->
  find_id (n_peers n') pid = Some p' -> p_addr p' = None.
Proof.
  intros pid x n n' p' H I Hp'. unfold reset_peer_address in H. bind H as p m H1. apply rd_ok in H1. destruct H1 as [Hf ->].
  destruct (is_established p) eqn:E.
  - unfold peer_reset in H. bind H as p1 m H1. apply rd_ok in H1. destruct H1 as [Hf1 ->]. rewrite Hf in Hf1. injection Hf1 as <-.
    bind H as u m H1. assert (Hr : reset_peer P pid n = Ok (u, m)).
    { unfold is_established in E. destruct (p_state p); try discriminate. exact H1. }
    clear H1. destruct (p_addr p') as [a|] eqn:Ea; [|reflexivity]. exfalso.
    pose proof (reset_peer_after _ _ _ _ _ Hr) as (p0 & _ & Ef).
    assert (I1 : inv0 P m) by (eapply inv0_steps; [eapply (reset_peer_steps P ev (fr pid)); [exact Hr | apply N.eqb_refl] | exact I]).
    eapply (setup_peer_steps P ev fq) in H;
      [|intros q Hq; rewrite Ef in Hq; injection Hq as <-; apply reset_fn_fields].
    destruct H as [S _]. destruct (addr_steps P ev fq m n' pid p' a S eq_refl I1 Hp' Ea) as (p2 & Hp2 & Ha2).
    rewrite Ef in Hp2. injection Hp2 as <-. destruct (reset_fn_fields P (set_p_sock None p0)) as (_ & _ & _ & _ & _ & _ & _ & _ & _ & E2 & _). congruence.
  - apply wr_ok in H. destruct H as (p0 & Hp0 & ->). cbn [n_peers set_n_peers] in Hp'.
    erewrite find_id_upd_same in Hp'; [|intros q; reflexivity | exact Hp0]. injection Hp' as <-. reflexivity.
Qed.

Lemma addr_eqb_true : forall a b, addr_eqb a b = true <-> a = b.
Proof.
  intros [a|] [b|]; cbn; split; try discriminate; try reflexivity.
  - intros H. apply N.eqb_eq in H. congruence.
  - intros H. injection H as ->. apply N.eqb_refl.
Qed.

Lemma claim_scan_spec : forall l pid a force,
  match claim_scan l pid a force with
  | ClFree => forall q, In q l -> p_id q <> pid -> is_enabled q = true -> p_addr q <> Some a
  | ClEvict e => e <> pid /\ exists q, In q l /\ p_id q = e /\ p_addr q = Some a /\ is_enabled q = true
  | ClRefused => True
  end.
Proof.
  induction l as [|x l IH]; intros pid a force; [intros q []|]. cbn [claim_scan]. specialize (IH pid a force).
  assert (Hskip : (p_id x <> pid -> is_enabled x = true -> p_addr x <> Some a) ->
    match claim_scan l pid a force with
    | ClFree => forall q, In q (x :: l) -> p_id q <> pid -> is_enabled q = true -> p_addr q <> Some a
    | ClEvict e => e <> pid /\ exists q, In q (x :: l) /\ p_id q = e /\ p_addr q = Some a /\ is_enabled q = true
    | ClRefused => True
    end).
  { intros Hx. destruct (claim_scan l pid a force) as [| |e]; [|exact I|].
    - intros q [<-|Hq]; [exact Hx | exact (IH q Hq)].
    - destruct IH as (E & q & Hq & X). split; [exact E|]. exists q. split; [right; exact Hq | exact X]. }
  destruct (N.eqb_spec (p_id x) pid) as [E|E]; [apply Hskip; intros H; congruence|].
  destruct (is_enabled x) eqn:En; cbn [negb]; [|apply Hskip; intros _ H; congruence].
  destruct (owns_address x a); [exact I|].
  destruct (addr_eqb (p_addr x) (Some a)) eqn:Ea.
  - apply addr_eqb_true in Ea. destruct (_ && _)%bool; [exact I|]. split; [exact E|].
    exists x. split; [left; reflexivity|]. split; [reflexivity | split; assumption].
  - apply Hskip. intros _ _ H. rewrite H in Ea. cbn in Ea. rewrite N.eqb_refl in Ea. discriminate.
Qed.

(** fields of a peer that only few functions change *)
Definition kf (p : peer) := (p_key p, p_group p, p_conf p, p_serial p, p_eh_to p, p_valid_to p, p_state p, p_mtu p).
Definition ktrk (pid : N) (n n' : node) : Prop :=
  forall p', find_id (n_peers n') pid = Some p' -> exists p, find_id (n_peers n) pid = Some p /\ kf p' = kf p.
Lemma ktrk_refl : forall pid n, ktrk pid n n.
Proof. intros pid n p H. exists p. split; [exact H | reflexivity]. Qed.
Lemma ktrk_trans : forall pid n n1 n2, ktrk pid n n1 -> ktrk pid n1 n2 -> ktrk pid n n2.
Proof.
  intros pid n n1 n2 H1 H2 p Hp. destruct (H2 p Hp) as (p1 & Hp1 & E1). destruct (H1 p1 Hp1) as (p0 & Hp0 & E0).
  exists p0. split; [exact Hp0 | congruence].
Qed.
Lemma ktrk_wr : forall pid f x n n', wr pid f n = Ok (x, n') -> keeps_id f -> (forall p, kf (f p) = kf p) -> ktrk pid n n'.
Proof.
  intros pid f x n n' H Hk He p Hp. apply wr_ok in H. destruct H as (p0 & Hf & ->). cbn [n_peers set_n_peers] in Hp.
  rewrite (find_id_upd_same _ _ _ _ Hk Hf) in Hp. injection Hp as <-. exists p0. split; [exact Hf | apply He].
Qed.
Lemma ktrk_oth : forall pid q n n', oth q n n' -> pid <> q -> ktrk pid n n'.
Proof. intros pid q n n' H E p Hp. rewrite (H pid E) in Hp. exists p. split; [exact Hp | reflexivity]. Qed.
Lemma ktrk_same : forall pid n n', n_peers n' = n_peers n -> ktrk pid n n'.
Proof. intros pid n n' E p Hp. rewrite E in Hp. exists p. split; [exact Hp | reflexivity]. Qed.

Definition has_addr (pid : N) (a : addr) (n : node) : Prop := forall p, find_id (n_peers n) pid = Some p -> p_addr p = Some a.

Lemma wr_found : forall pid f x n n', wr pid f n = Ok (x, n') -> keeps_id f ->
  forall p', find_id (n_peers n') pid = Some p' -> exists p, find_id (n_peers n) pid = Some p /\ p' = f p.
Proof.
  intros pid f x n n' H Hk p' Hp'. apply wr_ok in H. destruct H as (p0 & Hf & ->). cbn [n_peers set_n_peers] in Hp'.
  rewrite (find_id_upd_same _ _ _ _ Hk Hf) in Hp'. injection Hp' as <-. exists p0. split; [exact Hf | reflexivity].
Qed.
Lemma has_addr_wr : forall pid f a x n n', wr pid f n = Ok (x, n') -> keeps_id f -> (forall p, p_addr (f p) = p_addr p) ->
  has_addr pid a n -> has_addr pid a n'.
Proof. intros pid f a x n n' H Hk He Ha p' Hp'. destruct (wr_found _ _ _ _ _ H Hk p' Hp') as (p & Hp & ->). rewrite He. exact (Ha p Hp). Qed.

Lemma act_steps_quiet : forall n n' pid, St fq n n' -> Inv n -> act pid n -> act pid n'.
Proof.
  intros n n' pid S I Ha p' Hp'. pose proof (to_quiet _ _ fq _ _ S I) as [_ I']. apply (i_alive _ _ I' pid p' Hp').
  eapply (en_steps P ev fq n n' pid S eq_refl (i_0 _ _ I)); [|exact Hp']. intros p Hp. apply (i_alive _ _ I pid p Hp). exact (Ha p Hp).
Qed.

(** the tail of [claim_address] *)
Definition claim_sock (pid : N) (sk : option sock) : M unit :=
  match sk with
  | Some (SBound k) =>
      p <- rd pid ;;
      match p_sock p with
      | Some (SBound k') => when (negb (N.eqb k k')) (free_socket pid ;; wr pid (set_p_sock (Some (SBound k))))
      | _ => free_socket pid ;; wr pid (set_p_sock (Some (SBound k)))
      end
  | Some sk => use_sock sk
  | None => ret tt
  end.
Lemma set_sock_facts : forall pid k x n n', (free_socket pid ;; wr pid (set_p_sock (Some (SBound k)))) n = Ok (x, n') -> Inv n -> act pid n ->
  St fq n n' /\ ktrk pid n n' /\ loc pid n n' /\ forall a, has_addr pid a n -> has_addr pid a n'.
Proof.
  intros pid k x n n' H I Ha. bind H as u m H1.
  assert (A : St fq n m /\ ktrk pid n m /\ loc pid n m /\ forall a, has_addr pid a n -> has_addr pid a m).
  { split; [eapply free_socket_steps; exact H1|]. split; [|split; [eapply loc_free_socket; exact H1|]].
    - unfold free_socket in H1. minv; try apply ktrk_refl; (eapply ktrk_wr; [eassumption | intros q; reflexivity | intros q; reflexivity]).
    - intros a Hadr. unfold free_socket in H1. minv; try exact Hadr; (eapply has_addr_wr; [eassumption | intros q; reflexivity | intros q; reflexivity | exact Hadr]). }
  destruct A as (A1 & A2 & A3 & A4). pose proof (act_steps_quiet _ _ _ A1 I Ha) as Ha1.
  split; [|split; [|split]].
  - eapply steps_trans; [exact A1|]. eapply wr_steps; [exact H|]. intros p Hp. apply ps_sock; [trivial | right; exact (Ha1 p Hp)].
  - eapply ktrk_trans; [exact A2|]. eapply ktrk_wr; [exact H | intros q; reflexivity | intros q; reflexivity].
  - eapply loc_trans; [exact A3|]. eapply loc_wr; [exact H | intros q; reflexivity].
  - intros a Hadr. eapply has_addr_wr; [exact H | intros q; reflexivity | intros q; reflexivity | exact (A4 a Hadr)].
Qed.
Lemma claim_sock_facts : forall pid sk x n n', claim_sock pid sk n = Ok (x, n') -> Inv n -> act pid n ->
  St fq n n' /\ ktrk pid n n' /\ loc pid n n' /\ forall a, has_addr pid a n -> has_addr pid a n'.
Proof.
  intros pid sk x n n' H I Ha.
  assert (Hn : St fq n n /\ ktrk pid n n /\ loc pid n n /\ forall a, has_addr pid a n -> has_addr pid a n).
  { split; [apply steps_refl|]. split; [apply ktrk_refl|]. split; [apply loc_refl | trivial]. }
  unfold claim_sock in H. destruct sk as [[k|o i]|].
  - bind H as p m H1. apply rd_ok in H1. destruct H1 as [Hf ->].
    assert (Hset : (free_socket pid ;; wr pid (set_p_sock (Some (SBound k)))) n = Ok (x, n') -> 
      St fq n n' /\ ktrk pid n n' /\ loc pid n n' /\ forall a, has_addr pid a n -> has_addr pid a n').
    { intros Hs. eapply set_sock_facts; eassumption. }
    destruct (p_sock p) as [[k'|o i]|]; [|exact (Hset H)|exact (Hset H)].
    unfold when in H. destruct (negb _); [exact (Hset H)|]. apply ret_ok in H. destruct H as [_ ->]. exact Hn.
  - apply use_sock_ok in H. destruct H as [_ ->]. exact Hn.
  - apply ret_ok in H. destruct H as [_ ->]. exact Hn.
Qed.

(** who owns an address that is not refused *)
Lemma claim_owner : forall l pid a force,
  match claim_scan l pid a force with
  | ClFree => forall q, In q l -> is_enabled q = true -> owns_address q a = true -> p_id q = pid
  | ClRefused => True
  | ClEvict e => exists q, In q l /\ p_addr q = Some a /\ owns_address q a = false
  end.
Proof.
  induction l as [|x l IH]; intros pid a force; [intros q []|]. cbn [claim_scan]. specialize (IH pid a force).
  assert (Hskip : (is_enabled x = true -> owns_address x a = true -> p_id x = pid) ->
    match claim_scan l pid a force with
    | ClFree => forall q, In q (x :: l) -> is_enabled q = true -> owns_address q a = true -> p_id q = pid
    | ClRefused => True
    | ClEvict e => exists q, In q (x :: l) /\ p_addr q = Some a /\ owns_address q a = false
    end).
  { intros Hx. destruct (claim_scan l pid a force) as [| |e]; [|exact I|].
    - intros q [<-|Hq]; [exact Hx | exact (IH q Hq)].
    - destruct IH as (q & Hq & X). exists q. split; [right; exact Hq | exact X]. }
  destruct (N.eqb_spec (p_id x) pid) as [E|E]; [apply Hskip; intros _ _; exact E|].
  destruct (is_enabled x) eqn:En; cbn [negb]; [|apply Hskip; intros H; discriminate].
  destruct (owns_address x a) eqn:Eo; [exact I|].
  destruct (addr_eqb (p_addr x) (Some a)) eqn:Ea; [|apply Hskip; intros _ H; discriminate].
  apply addr_eqb_true in Ea. destruct (_ && _)%bool; [exact I|]. exists x. split; [left; reflexivity | split; assumption].
Qed.

Lemma claimed_safe : forall pid a force x n m m', St fc n m -> sf n m -> Inv n -> claim_scan (n_peers n) pid a force <> ClRefused ->
  wr pid (set_p_addr (Some a)) m = Ok (x, m') -> sf n m'.
Proof.
  intros pid a force x n m m' S F I Hne H b Hs i q j p Hq He Ho Hp Hb.
  assert (Hi : ids_ok n) by apply (wf_ids _ (i_wf _ _ (i_0 _ _ I))).
  assert (Q : exists q1, find_id (n_peers m) i = Some q1 /\ is_enabled q1 = true /\ owns_address q1 b = true).
  { apply wr_ok in H. destruct H as (p0 & _ & ->). cbn [n_peers set_n_peers] in Hq. rewrite find_id_upd in Hq by (intros y; reflexivity).
    destruct (N.eqb_spec i pid) as [->|E]; [|exists q; repeat split; assumption].
    destruct (find_id (n_peers m) pid) as [q1|] eqn:E1; [|discriminate]. injection Hq as <-. exists q1. split; [reflexivity | split; [exact He | exact Ho]]. }
  destruct Q as (q1 & Hq1 & He1 & Ho1).
  assert (Q : j <> pid -> find_id (n_peers m) j = Some p).
  { intros Hj. apply wr_ok in H. destruct H as (p0 & _ & ->). cbn [n_peers set_n_peers] in Hp. rewrite find_id_upd in Hp by (intros y; reflexivity).
    destruct (N.eqb_spec j pid) as [E|E]; [congruence | exact Hp]. }
  destruct (N.eq_dec j pid) as [->|Hj]; [|exact (F b Hs i q1 j p Hq1 He1 Ho1 (Q Hj) Hb)].
  destruct (wr_found _ _ _ _ _ H ltac:(intros y; reflexivity) p Hp) as (p0 & _ & E). rewrite E in Hb. cbn [p_addr set_p_addr] in Hb. injection Hb as <-.
  destruct (own_steps P ev _ _ _ _ _ _ S eq_refl (i_0 _ _ I) Hq1 He1 Ho1) as (q0 & Hq0 & He0 & Ho0).
  pose proof (claim_owner (n_peers n) pid a force) as Hc. destruct (find_id_in _ _ _ Hq0) as [Hin0 Eid0].
  destruct (claim_scan (n_peers n) pid a force) as [| |e]; [|congruence|].
  - rewrite <- (Hc q0 Hin0 He0 Ho0). exact Eid0.
  - exfalso. destruct Hc as (r & Hr & Ha & Hno). pose proof (in_find n r Hi Hr) as Hfr.
    rewrite <- (Hs i q0 _ r Hq0 He0 Ho0 Hfr Ha) in Hq0. rewrite Hfr in Hq0. injection Hq0 as <-. congruence.
Qed.

Lemma wr_addr_to : forall pid a x n n', wr pid (set_p_addr (Some a)) n = Ok (x, n') -> Inv n -> act pid n ->
  (forall q p, find_id (n_peers n) q = Some p -> q <> pid -> p_addr p <> Some a) -> St fc n n' /\ Inv n'.
Proof.
  intros pid a x n n' H I Ha Hu. pose (f := mk_flags false true no no no no no no false).
  assert (S : St f n n').
  { eapply wr_steps; [exact H|]. intros p Hp. apply ps_claim; [reflexivity | exact (Ha p Hp)|]. intros q Hq Hne.
    assert (Hi : ids_ok n) by apply (wf_ids _ (i_wf _ _ (i_0 _ _ I))).
    apply (Hu (p_id q) q (in_find n q Hi Hq)). apply find_id_in in Hp. rewrite <- (proj2 Hp). exact Hne. }
  split; [eapply steps_mono; [|exact S]; repeat split; try discriminate|]. eapply inv_quiet; [exact S | split; reflexivity | exact I].
Qed.

Lemma claim_address_to : forall pid sk la a force b n n', claim_address P pid sk la a force n = Ok (b, n') -> Inv n -> en pid n ->
  To fc n n' /\ (b = true -> ktrk pid n n' /\ has_addr pid a n' /\ kc n n').
Proof.
  intros pid sk la a force b n n' H I He. unfold claim_address in H.
  bind H as l m H1. apply gets_ok in H1. destruct H1 as [-> ->].
  pose proof (claim_scan_spec (n_peers n) pid a force) as Hs.
  assert (Hi : ids_ok n) by apply (wf_ids _ (i_wf _ _ (i_0 _ _ I))).
  assert (Hdis : forall q, In q (n_peers n) -> is_enabled q = false -> p_addr q = None).
  { intros q Hq E. apply (i_pinv _ _ (i_0 _ _ I) q Hq). destruct (p_state q) eqn:Es; try reflexivity; exfalso;
      (assert (Ha : is_enabled q = true) by (apply (i_alive _ _ I (p_id q) q (in_find n q Hi Hq)); unfold actp; congruence); congruence). }
  assert (Hgo : claim_scan (n_peers n) pid a force <> ClRefused ->
    (match claim_scan (n_peers n) pid a force with ClEvict q => reset_peer_address P q | _ => ret tt end ;;
     wr pid (set_p_addr (Some a)) ;; claim_sock pid sk ;;
     match la with Some la => wr pid (set_p_laddr (Some la)) | None => ret tt end ;; ret true) n = Ok (b, n') ->
    To fc n n' /\ (b = true -> ktrk pid n n' /\ has_addr pid a n' /\ kc n n')).
  { clear H. intros Hne H. bind H as u m1 H1.
    assert (A : To fc n m1 /\ ktrk pid n m1 /\ kc n m1 /\ forall q p, find_id (n_peers m1) q = Some p -> q <> pid -> p_addr p <> Some a).
    { destruct (claim_scan (n_peers n) pid a force) as [| |e]; [|congruence|].
      - apply ret_ok in H1. destruct H1 as [_ ->]. split; [apply to_refl; exact I|]. split; [apply ktrk_refl|]. split; [repeat split|].
        intros q p Hp Hq Hadr. apply find_id_in in Hp. destruct Hp as [Hin <-].
        destruct (is_enabled p) eqn:E; [exact (Hs p Hin Hq E Hadr)|]. rewrite (Hdis p Hin E) in Hadr. discriminate.
      - destruct Hs as (Hep & q0 & Hin0 & E0 & Ha0 & _).
        pose proof (loc_reset_peer_address _ _ _ _ _ H1) as [O1 K1].
        split; [eapply to_mono; [apply fle_fr_fc | eapply reset_peer_address_to; eassumption]|].
        split; [eapply ktrk_oth; [exact O1 | congruence]|]. split; [exact K1|].
        intros q p Hp Hq Hadr. destruct (N.eq_dec q e) as [->|Ne].
        + rewrite (reset_peer_address_none e u n m1 p H1 (i_0 _ _ I) Hp) in Hadr. discriminate.
        + rewrite (O1 q Ne) in Hp. apply find_id_in in Hp. destruct Hp as [Hin Eq].
          apply Ne. rewrite <- Eq, <- E0. exact (wf_addr _ (i_wf _ _ (i_0 _ _ I)) p q0 a Hin Hin0 Hadr Ha0). }
    destruct A as (T1 & K1 & C1 & Hu). pose proof (to_en _ _ _ _ _ pid T1 eq_refl I He) as He1.
    pose proof (proj2 T1) as I1. pose proof (act_en _ _ _ I1 He1) as Ha1.
    bind H as u2 m2 H2. assert (T2 : To fc n m2).
    { destruct (wr_addr_to _ _ _ _ _ H2 I1 Ha1 Hu) as [S2 I2]. destruct T1 as [[S1 F1] _]. split; [split; [eapply steps_trans; eassumption | intros _] | exact I2].
      eapply claimed_safe; [exact S1 | exact (F1 eq_refl) | exact I | exact Hne | exact H2]. }
    pose proof (ktrk_wr _ _ _ _ _ H2 ltac:(intros q; reflexivity) ltac:(intros q; reflexivity)) as K2.
    pose proof (loc_wr _ _ _ _ _ H2 ltac:(intros q; reflexivity)) as [_ C2].
    assert (A2 : has_addr pid a m2).
    { intros p Hp. destruct (wr_found _ _ _ _ _ H2 ltac:(intros q; reflexivity) p Hp) as (p0 & _ & ->). reflexivity. }
    pose proof (to_en _ _ _ _ _ pid T2 eq_refl I He) as He2. pose proof (proj2 T2) as I2.
    bind H as u3 m3 H3. apply claim_sock_facts in H3; [|exact I2 | exact (act_en _ _ _ I2 He2)].
    destruct H3 as (S3 & K3 & [_ C3] & A3). pose proof (to_quiet _ _ fc _ _ S3 I2) as T3. pose proof (proj2 T3) as I3. specialize (A3 a A2).
    bind H as u4 m4 H4. apply ret_ok in H. destruct H as [<- ->].
    assert (A4 : To fc m3 m4 /\ ktrk pid m3 m4 /\ kc m3 m4 /\ has_addr pid a m4).
    { destruct la as [y|].
      - split; [apply to_quiet; [|exact I3]; eapply wr_steps; [exact H4 | intros p Hp; apply ps_laddr]|].
        split; [eapply ktrk_wr; [exact H4 | intros q; reflexivity | intros q; reflexivity]|].
        split; [apply (loc_wr _ _ _ _ _ H4); intros q; reflexivity|].
        eapply has_addr_wr; [exact H4 | intros q; reflexivity | intros q; reflexivity | exact A3].
      - apply ret_ok in H4. destruct H4 as [_ ->]. split; [apply to_refl; exact I3|]. split; [apply ktrk_refl|]. split; [repeat split | exact A3]. }
    destruct A4 as (T4 & K4 & C4 & A4).
    split; [eapply to_trans; [exact T2|]; eapply to_trans; [exact T3 | exact T4]|].
    intros _. split; [eapply ktrk_trans; [exact K1|]; eapply ktrk_trans; [exact K2|]; eapply ktrk_trans; [exact K3 | exact K4]|].
    split; [exact A4|]. destruct C1 as (X1 & X2 & X3 & X4), C2 as (Y1 & Y2 & Y3 & Y4), C3 as (Z1 & Z2 & Z3 & Z4), C4 as (W1 & W2 & W3 & W4). repeat split; congruence. }
  destruct (claim_scan (n_peers n) pid a force) as [| |e] eqn:Ec.
  - apply Hgo; [discriminate | exact H].
  - bind H as u m1 H1. apply ret_ok in H. destruct H as [<- ->]. split; [|discriminate].
    eapply to_mono; [apply fle_fr_fc | eapply reset_peer_address_to; eassumption].
  - apply Hgo; [discriminate | exact H].
Qed.

End Fun.
