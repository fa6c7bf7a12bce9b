(** Proofs for C73: executions *)
From Coq Require Permutation.
From Verif Require Import Base BufferModel TrafficModel TrafficSpec TrafficProofs TrafficProofs2 TrafficProofs3.

Section Env.
Context (E : environment) (C : config).

Definition fine (s : node) (evs : list event) (s' : node) : Prop := wf s' /\ books s evs s' /\ sums s evs s'.
Lemma acct_fine : forall P s evs s', acct P s evs s' -> fine s evs s'.
Proof. intros P s evs s' A. split; [exact (a_wf _ _ _ _ A)|]. split; [exact (a_books _ _ _ _ A) | exact (a_sums _ _ _ _ A)]. Qed.
Lemma fine_trans : forall s e1 s1 e2 s2, fine s e1 s1 -> fine s1 e2 s2 -> fine s (e1 ++ e2) s2.
Proof.
  intros s e1 s1 e2 s2 (A1 & A2 & A3) (B1 & B2 & B3). split; [exact B1|]. split.
  - intros L H. rewrite fold_left_app. exact (B2 _ (A2 _ H)).
  - intros field Hf G H st. pose proof (B3 field Hf _ (A3 field Hf G H) st) as X. rewrite past_app. cbv beta in X. rewrite <- (N.add_assoc (G st)) in X. exact X.
Qed.

Lemma present_app : forall field st a b, present field st (a ++ b) = (present field st a + present field st b)%N.
Proof. intros field st a b. induction a as [|q a IH]; [reflexivity|]. cbn [app]. change (present field st (q :: a ++ b)) with (field (p_stats q) st + present field st (a ++ b))%N. rewrite IH. change (present field st (q :: a)) with (field (p_stats q) st + present field st a)%N. lia. Qed.

Definition added (s : node) : node :=
  mk_node (n_peers s ++ [mk_peer (n_next s) Inactive false None None None false no_stats]) (n_eth s) (n_stats s) (n_next s + 1)%N (n_tick s).
Lemma added_ids : forall s, ids (added s) = ids s ++ [n_next s].
Proof. intros s. unfold ids, added. cbn [n_peers]. rewrite map_app. reflexivity. Qed.
Lemma added_fine : forall s, wf s -> fine s [] (added s).
Proof.
  intros s [a b c d e]. split; [|split].
  - constructor.
    + rewrite added_ids. apply (Permutation.Permutation_NoDup (l := n_next s :: ids s)); [apply Permutation.Permutation_cons_append|]. constructor; [|exact a]. intros X. apply b in X. lia.
    + intros p H. rewrite added_ids in H. apply in_app_or in H. unfold added. cbn [n_next]. destruct H as [H|[<-|[]]]; [apply b in H; lia | lia].
    + intros q H X. unfold added in H. cbn [n_peers] in H. apply in_app_or in H. destruct H as [H|[<-|[]]]; [exact (c q H X) | discriminate X].
    + intros q H X. unfold added in H. cbn [n_peers] in H. apply in_app_or in H. destruct H as [H|[<-|[]]]; [exact (d q H X) | exfalso; apply X; reflexivity].
    + intros a0 p0 H. destruct (e a0 p0 H) as (q & A & B). exists q. split; [apply in_or_app; left; exact A | exact B].
  - intros L (A & B & D). cbn [fold_left]. split; [exact A|]. split.
    + intros q H. unfold added in H. cbn [n_peers] in H. apply in_app_or in H. destruct H as [H|[<-|[]]]; [exact (B q H)|]. cbn [p_stats p_id]. symmetry. apply D. lia.
    + intros p H. unfold added in H. cbn [n_next] in H. apply D. lia.
  - intros field Hf G H st. specialize (H st). unfold added. cbn [n_stats n_peers past fold_right]. rewrite present_app, H. f_equal. cbn [present fold_right p_stats]. rewrite (field_no field st Hf). lia.
Qed.

Definition removed (p : N) (s : node) : node :=
  mk_node (filter (fun q => negb (N.eqb (p_id q) p)) (n_peers s)) (n_eth s) (n_stats s) (n_next s) (n_tick s).
Lemma removed_fine : forall p s, wf s -> (forall a q, In (a, Some q) (n_eth s) -> q <> p) -> (forall q, In q (n_peers s) -> p_id q = p -> p_stats q = no_stats) -> fine s [Removed p] (removed p s).
Proof.
  intros p s [a b c d e] He Hs. assert (Sub : forall q, In q (n_peers (removed p s)) -> In q (n_peers s)) by (intros q H; unfold removed in H; cbn [n_peers] in H; apply filter_In in H; apply H). split; [|split].
  - constructor.
    + unfold ids, removed. cbn [n_peers]. revert a. unfold ids. clear. induction (n_peers s) as [|q l IH]; intros Nd; [constructor|]. cbn [map] in Nd. inversion Nd as [|? ? Hn Nd']; subst. cbn [filter].
      destruct (negb (N.eqb (p_id q) p)); [|exact (IH Nd')]. cbn [map]. constructor; [|exact (IH Nd')]. intros X. apply Hn. apply in_map_iff in X. destruct X as (y & Y1 & Y2). apply filter_In in Y2. rewrite <- Y1. apply in_map, Y2.
    + intros x H. unfold ids in H. apply in_map_iff in H. destruct H as (y & Y1 & Y2). apply b. rewrite <- Y1. apply in_map, Sub, Y2.
    + intros q H. exact (c q (Sub q H)).
    + intros q H. exact (d q (Sub q H)).
    + intros a0 p0 H. destruct (e a0 p0 H) as (q & A & B & D). exists q. split; [|auto]. unfold removed. cbn [n_peers]. apply filter_In. split; [exact A|]. rewrite B. pose proof (He a0 p0 H) as X. apply N.eqb_neq in X. rewrite X. reflexivity.
  - intros L (A & B & D). cbn [fold_left book]. split; [exact A|]. split; [intros q H; exact (B q (Sub q H)) | exact D].
  - intros field Hf G H st. specialize (H st). cbn [past fold_right]. rewrite N.add_0_r. unfold removed. cbn [n_stats n_peers]. rewrite H. f_equal. f_equal.
    revert Hs. clear - Hf. induction (n_peers s) as [|q l IH]; intros Hs; [reflexivity|]. cbn [filter]. assert (Hs' : forall q, In q l -> p_id q = p -> p_stats q = no_stats) by (intros y Hy; apply Hs; right; exact Hy).
    change (present field st (q :: l)) with (field (p_stats q) st + present field st l)%N. rewrite (IH Hs'). destruct (N.eqb_spec (p_id q) p) as [X|X]; cbn [negb].
    + rewrite (Hs q (or_introl eq_refl) X), (field_no field st Hf). lia.
    + reflexivity.
Qed.

Lemma step_ok : forall s o, wf s -> possible s o -> exists s' evs, step E C o s = Ok (s', evs) /\ fine s evs s'.
Proof.
  intros s o W Hp. destruct o as [dest f|p w|p|who pk w|p x old i|p d|d|p|keep]; cbn [step possible] in *.
  - destruct (iface_ok E C dest f s W) as (s' & evs & A & B & _); [intros d ->; exact Hp|]. exists s', evs. split; [exact A | exact (acct_fine _ _ _ _ B)].
  - destruct (get_ok s p Hp) as (q & G & Hq & Hid). destruct (handle_recv_ok E C p w s q W G Hq Hid) as (s' & evs & A & B & _). exists s', evs. split; [exact A | exact (acct_fine _ _ _ _ B)].
  - destruct (get_ok s p Hp) as (q & G & Hq & Hid). destruct (protocol_send_ok E p [] s q W G Hq Hid) as (s' & evs & A & B & _). exists s', evs. split; [exact A | exact (acct_fine _ _ _ _ B)].
  - destruct (handshake_ok E (fun _ => True) who pk w s W) as (s' & evs & A & B). exists s', evs. split; [exact A | exact (acct_fine _ _ _ _ B)].
  - set (s1 := change p (fun q => mk_peer (p_id q) Established true (Some x) old i true (p_stats q)) s).
    assert (A1 : acct (fun y => y = p) s [] s1).
    { apply acct_change; [exact W | reflexivity | reflexivity|]. intros q Hq Hid. cbn [est p_state p_proto p_sess]. split; [intros _; split; [reflexivity | discriminate] | auto]. }
    destruct (s_initiator x).
    + exists s1, []. split; [reflexivity | exact (acct_fine _ _ _ _ A1)].
    + destruct (session_send_ok E p x [] s1 (a_wf _ _ _ _ A1)) as (s' & evs & A & B & _); [rewrite (a_ids _ _ _ _ A1); exact Hp|]. exists s', evs. split; [exact A|]. change evs with ([] ++ evs). exact (fine_trans _ _ _ _ _ (acct_fine _ _ _ _ A1) (acct_fine _ _ _ _ B)).
  - destruct (get_ok s p Hp) as (q & G & Hq & Hid). destruct (peer_reset_ok E p d s q W G Hq Hid) as (s' & evs & A & B & _). exists s', evs. split; [exact A | exact (acct_fine _ _ _ _ B)].
  - pose proof (added_fine s W) as A1. exists (setup_peer E (n_next s) d (added s)), []. split; [reflexivity|]. change (@nil event) with ([] ++ @nil event). apply (fine_trans _ _ (added s)); [exact A1|].
    apply (acct_fine (fun y => y = n_next s)). apply setup_acct; [apply A1|]. intros q Hq Hid. unfold added in Hq. cbn [n_peers] in Hq. apply in_app_or in Hq. destruct Hq as [Hq|[<-|[]]]; [|reflexivity].
    exfalso. assert (X : (p_id q < n_next s)%N) by (apply (wf_next s W); apply in_map, Hq). lia.
  - destruct (get_ok s p Hp) as (q & G & Hq & Hid). destruct (reset_ok p s q W G Hq Hid) as (R & A & U). rewrite R. cbn [bind fst snd]. eexists. eexists. split; [reflexivity|].
    apply (fine_trans _ _ (was_reset p s)); [exact (acct_fine _ _ _ _ A)|]. apply removed_fine; [exact (a_wf _ _ _ _ A) | |].
    + intros a y Hy. unfold was_reset, with_eth in Hy. cbn [n_eth change] in Hy. apply filter_In in Hy. destruct Hy as [_ Hy]. cbn [snd opt_is] in Hy. intros ->. rewrite N.eqb_refl in Hy. discriminate Hy.
    + intros q' Hq' Hid'. rewrite (U q' Hq' Hid'). reflexivity.
  - eexists. eexists. split; [reflexivity|]. destruct (acct_fine (fun _ => True) s [] s (acct_refl _ s W)) as (A & B & D). split; [|split; [exact B | exact D]]. destruct W as [a b c d e]. constructor; try assumption.
    intros a0 p0 H. unfold with_eth in H. cbn [n_eth] in H. apply filter_In in H. exact (e a0 p0 (proj1 H)).
Qed.

(** ** Executions *)
Definition L0 : ledger := mk_ledger no_stats (fun _ => no_stats).
Lemma init_wf : wf init.
Proof. constructor; [constructor | | | |]; intros; contradiction. Qed.
Lemma execution_fine : forall s evs, execution E C s evs -> wf s /\ good s (fold_left book evs L0) /\
  (forall field, field = packets \/ field = octets -> total_ok field s (fun st => past field st evs)).
Proof.
  intros s evs H. induction H as [|s evs o s' new H IH Hp Hs].
  - split; [exact init_wf|]. split; [split; [reflexivity|]; split; [intros q []|]; intros; reflexivity|]. intros field [->| ->] st; reflexivity.
  - destruct IH as (W & G & T). destruct (step_ok s o W Hp) as (s1 & e1 & X & F1 & F2 & F3). assert (Y : (s1, e1) = (s', new)) by congruence. injection Y as -> ->. split; [exact F1|]. split.
    + rewrite fold_left_app. exact (F2 _ G).
    + intros field Hf st. rewrite past_app. exact (F3 field Hf _ (T field Hf) st).
Qed.

Lemma number_app : forall a b, number (a ++ b) = (number a + number b)%N.
Proof. intros a b. unfold number. rewrite app_length. lia. Qed.
Lemma volume_app : forall a b, volume (a ++ b) = (volume a + volume b)%N.
Proof. intros a b. induction a as [|x a IH]; [reflexivity|]. cbn [app]. change (volume (x :: a ++ b)) with (N.of_nat (length (snd x)) + volume (a ++ b))%N. rewrite IH. change (volume (x :: a)) with (N.of_nat (length (snd x)) + volume a)%N. lia. Qed.
Lemma correct_ext : forall c p1 p2, (forall st, p1 st = p2 st) -> correct c p1 -> correct c p2.
Proof. intros c p1 p2 H A st. rewrite <- H. apply A. Qed.
Lemma correct_enter : forall c pick pick' st p f, correct c pick -> (forall x, pick' x = pick x ++ if stat_eqb x st then [(p, f)] else []) ->
  correct (count1 st (N.of_nat (length f)) c) pick'.
Proof.
  intros c pick pick' st p f H K x. rewrite K. destruct (H x) as [A B]. unfold count1. cbn [packets octets]. unfold bump. destruct (stat_eqb x st).
  - rewrite number_app, volume_app. change (number [(p, f)]) with 1%N. change (volume [(p, f)]) with (N.of_nat (length f) + 0)%N. rewrite N.add_0_r, A, B. split; apply N.add_mod_idemp_l; exact U64_nz.
  - rewrite app_nil_r. auto.
Qed.
Lemma book_correct : forall L pick e, correct (lg L) pick -> correct (lg (book L e)) (fun st => pick st ++ contributes st e).
Proof.
  intros L pick e H. assert (Z : (forall st, contributes st e = []) -> correct (lg L) (fun st => pick st ++ contributes st e)) by (intros K; apply (correct_ext _ pick); [intros st; rewrite K, app_nil_r; reflexivity | exact H]).
  destruct e as [[p|] [f|] w pk r|p i f ro r|p|p f|p c|p]; cbn [book]; try (apply Z; intros st; reflexivity).
  - cbn [contributes] in *. destruct (nonempty f && negb (repeated pk r))%bool; [|apply Z; reflexivity]. apply (correct_enter (lg L) pick _ _ p f H). intros x. destruct r as [[]|]; destruct x; reflexivity.
  - cbn [contributes]. cbv zeta. destruct ro.
    + unfold enter. cbn [lg]. apply (correct_enter _ (fun st => pick st ++ if stat_eqb st STAT_RX then [(p, f)] else []) _ STAT_RX_REORDERED p f).
      * apply (correct_enter _ pick _ STAT_RX p f H). reflexivity.
      * intros x. rewrite <- app_assoc. destruct x; reflexivity.
    + apply (correct_enter _ pick _ STAT_RX p f H). intros x. destruct x; reflexivity.
Qed.
Lemma book_correct_peer : forall L pick e y, correct (lp L y) pick -> (forall c, e <> Reset y c) ->
  correct (lp (book L e) y) (fun st => pick st ++ of_peer y (contributes st e)).
Proof.
  intros L pick e y H Hr. assert (Z : (forall st, of_peer y (contributes st e) = []) -> correct (lp L y) (fun st => pick st ++ of_peer y (contributes st e))) by (intros K; apply (correct_ext _ pick); [intros st; rewrite K, app_nil_r; reflexivity | exact H]).
  destruct e as [[p|] [f|] w pk r|p i f ro r|p|p f|p c|p]; cbn [book]; try (apply Z; intros st; reflexivity).
  - cbn [contributes] in *. destruct (nonempty f && negb (repeated pk r))%bool; [|apply Z; reflexivity]. unfold enter. cbn [lp]. destruct (N.eqb_spec y p) as [->|Hy].
    + apply (correct_enter (lp L p) pick _ _ p f H). intros x. unfold of_peer. destruct r as [[]|]; destruct x; cbn [filter fst stat_eqb]; rewrite ?N.eqb_refl; reflexivity.
    + apply Z. intros st. unfold of_peer. apply N.eqb_neq in Hy. rewrite N.eqb_sym in Hy. destruct r as [[]|]; destruct st; cbn [filter fst]; rewrite ?Hy; reflexivity.
  - cbn [contributes] in *. cbv zeta. destruct (N.eqb_spec y p) as [->|Hy].
    + destruct ro.
      * unfold enter. cbn [lp]. rewrite N.eqb_refl. apply (correct_enter _ (fun st => pick st ++ if stat_eqb st STAT_RX then [(p, f)] else []) _ STAT_RX_REORDERED p f).
        -- apply (correct_enter _ pick _ STAT_RX p f H). reflexivity.
        -- intros x. rewrite <- app_assoc. unfold of_peer. destruct x; cbn [filter fst stat_eqb]; rewrite ?N.eqb_refl; reflexivity.
      * unfold enter. cbn [lp]. rewrite N.eqb_refl. apply (correct_enter _ pick _ STAT_RX p f H). intros x. unfold of_peer. destruct x; cbn [filter fst stat_eqb]; rewrite ?N.eqb_refl; reflexivity.
    + assert (X : lp (if ro then enter STAT_RX_REORDERED p f (enter STAT_RX p f L) else enter STAT_RX p f L) y = lp L y).
      { apply N.eqb_neq in Hy. destruct ro; unfold enter; cbn [lp]; rewrite ?Hy; reflexivity. }
      rewrite X. apply Z. intros st. unfold of_peer. apply N.eqb_neq in Hy. rewrite N.eqb_sym in Hy. destruct st; destruct ro; cbn [filter fst]; rewrite ?Hy; reflexivity.
  - cbn [lp]. destruct (N.eqb_spec y p) as [->|Hy]; [exfalso; apply (Hr c); reflexivity|]. apply Z. reflexivity.
Qed.
Lemma of_peer_app : forall y a b, of_peer y (a ++ b) = of_peer y a ++ of_peer y b.
Proof. intros y a b. unfold of_peer. apply filter_app. Qed.
Lemma contributions_app : forall st a b, contributions st (a ++ b) = contributions st a ++ contributions st b.
Proof. intros st a b. apply flat_map_app. Qed.
Lemma contributions_one : forall st e, contributions st [e] = contributes st e.
Proof. intros st e. unfold contributions. cbn [flat_map]. apply app_nil_r. Qed.
Lemma ledger_global : forall evs, correct (lg (fold_left book evs L0)) (fun st => contributions st evs).
Proof.
  intros evs. induction evs as [|e evs IH] using rev_ind; [intros st; split; reflexivity|]. rewrite fold_left_app. cbn [fold_left].
  apply (correct_ext _ (fun st => contributions st evs ++ contributes st e)); [intros st; rewrite contributions_app, contributions_one; reflexivity|]. apply book_correct, IH.
Qed.
Lemma ledger_peer : forall y evs, correct (lp (fold_left book evs L0) y) (fun st => of_peer y (contributions st (since_reset y evs))).
Proof.
  intros y evs. induction evs as [|e evs IH] using rev_ind; [intros st; split; reflexivity|]. rewrite fold_left_app. cbn [fold_left].
  assert (K : (forall c, e <> Reset y c) -> correct (lp (book (fold_left book evs L0) e) y) (fun st => of_peer y (contributions st (since_reset y evs ++ [e])))).
  { intros Hr. apply (correct_ext _ (fun st => of_peer y (contributions st (since_reset y evs)) ++ of_peer y (contributes st e))); [intros st; rewrite contributions_app, contributions_one, of_peer_app; reflexivity|]. apply book_correct_peer; [exact IH | exact Hr]. }
  assert (S0 : since_reset y (evs ++ [e]) = match e with Reset q _ => if N.eqb q y then [] else since_reset y evs ++ [e] | _ => since_reset y evs ++ [e] end).
  { unfold since_reset. rewrite fold_left_app. reflexivity. }
  rewrite S0. destruct e as [who pl w pk r|p i f ro r|p|p f|p c|p]; try (apply K; discriminate).
  destruct (N.eqb_spec p y) as [->|Hp]; [|apply K; intros c0 X; injection X as X _; contradiction].
  cbn [book lp]. rewrite N.eqb_refl. intros st. split; reflexivity.
Qed.

Theorem counters : forall s evs, execution E C s evs -> correct (n_stats s) (fun st => contributions st evs) /\
  forall q, In q (n_peers s) -> correct (p_stats q) (fun st => of_peer (p_id q) (contributions st (since_reset (p_id q) evs))).
Proof.
  intros s evs H. destruct (execution_fine s evs H) as (W & (A & B & _) & _). split; [rewrite A; apply ledger_global|]. intros q Hq. rewrite (B q Hq). apply ledger_peer.
Qed.
Theorem totals : forall s evs, execution E C s evs -> forall st,
  packets (n_stats s) st = ((present packets st (n_peers s) + past packets st evs) mod U64)%N /\
  octets (n_stats s) st = ((present octets st (n_peers s) + past octets st evs) mod U64)%N.
Proof.
  intros s evs H st. destruct (counters s evs H) as [A _]. destruct (A st) as [A1 A2]. destruct (execution_fine s evs H) as (_ & _ & T).
  pose proof (T packets (or_introl eq_refl) st) as T1. pose proof (T octets (or_intror eq_refl) st) as T2. rewrite A1 in T1 |- *. rewrite A2 in T2 |- *. rewrite N.mod_mod in T1, T2 by exact U64_nz. auto.
Qed.
Theorem steps : forall s evs o, execution E C s evs -> possible s o -> exists s' new, step E C o s = Ok (s', new).
Proof. intros s evs o H Hp. destruct (execution_fine s evs H) as (W & _). destruct (step_ok s o W Hp) as (s' & new & X & _). exists s', new. exact X. Qed.
Theorem frame : forall s evs dest f s' new, execution E C s evs -> possible s (OIface dest f) -> step E C (OIface dest f) s = Ok (s', new) ->
  map fst (fates new) = recipients C s None dest f /\ Forall (about E s f) new.
Proof.
  intros s evs dest f s' new H Hp X. destruct (execution_fine s evs H) as (W & _). destruct (iface_ok E C dest f s W) as (s1 & e1 & A & _ & B & D); [intros d ->; exact Hp|].
  cbn [step] in X. assert (Y : (s1, e1) = (s', new)) by congruence. injection Y as -> ->. auto.
Qed.
Theorem packet : forall s evs p w s' new q, execution E C s evs -> known s p q -> step E C (OPacket p w) s = Ok (s', new) -> received E C s p q w new.
Proof.
  intros s evs p w s' new q H [Hq Hid] X. destruct (execution_fine s evs H) as (W & _). destruct (get_ok s p) as (q0 & G & Hq0 & Hid0); [rewrite <- Hid; apply in_map, Hq|].
  assert (q = q0) by exact (get_unique s p q0 q W G Hq Hid). subst q0. destruct (handle_recv_ok E C p w s q W G Hq Hid) as (s1 & e1 & A & _ & B).
  cbn [step] in X. assert (Y : (s1, e1) = (s', new)) by congruence. injection Y as -> ->. exact B.
Qed.
End Env.
