(** Requests are served, and only if made *)
From Coq Require Import Lia ZifyBool ZifyNat ZifyN.
From Verif Require Import Base SigModel SigSpec SigProofs SigProofs2.

(** Reload ([true]) and reset ([false]) *)
Definition rsig (b : bool) : sig := if b then SIGHUP else SIGUSR2.
Definition rdone (b : bool) : tev := if b then TReload else TReset.
Definition rflag (b : bool) (s : st) : bool := if b then s_reload s else s_reset s.
Definition b2n (b : bool) : nat := if b then 1 else 0.
Notation cnt := (count_occ tev_eq_dec).

Record req (b : bool) (s : st) : Prop := mk_req {
  q_since : since (TArrive (rsig b)) (rdone b) (s_trace s) = true -> member (rsig b) (s_pending s) || rflag b s = true;
  q_opened : opened (TArrive (rsig b)) (rdone b) (s_trace s) = true -> rflag b s = true;
  q_count : (cnt (s_trace s) (rdone b) + b2n (member (rsig b) (s_pending s)) + b2n (rflag b s) <= cnt (s_trace s) (TArrive (rsig b)))%nat }.
Definition requests (b : bool) (s : st) : Prop :=
  good (TArrive (rsig b)) (rdone b) (s_trace s) /\ (cnt (s_trace s) (rdone b) <= cnt (s_trace s) (TArrive (rsig b)))%nat /\ (fin (s_pc s) = false -> req b s).

Lemma since_other : forall A D x t, x <> A -> x <> D -> since A D (x :: t) = since A D t.
Proof. intros A D x t Ha Hd. cbn [since]. destruct (tev_eq_dec x D); [contradiction|]. destruct (tev_eq_dec x A); [contradiction|reflexivity]. Qed.
Lemma since_A : forall A D t, A <> D -> since A D (A :: t) = true.
Proof. intros A D t N. cbn [since]. destruct (tev_eq_dec A D); [contradiction|]. destruct (tev_eq_dec A A); [reflexivity|contradiction]. Qed.
Lemma since_D : forall A D t, since A D (D :: t) = false.
Proof. intros A D t. cbn [since]. destruct (tev_eq_dec D D); [reflexivity|contradiction]. Qed.
Lemma opened_other : forall A D x t, x <> TOpen -> x <> D -> opened A D (x :: t) = opened A D t.
Proof. intros A D x t Ha Hd. cbn [opened]. destruct (tev_eq_dec x D); [contradiction|]. destruct (tev_eq_dec x TOpen); [contradiction|reflexivity]. Qed.
Lemma opened_D : forall A D t, opened A D (D :: t) = false.
Proof. intros A D t. cbn [opened]. destruct (tev_eq_dec D D); [reflexivity|contradiction]. Qed.
Lemma opened_open : forall A D t, TOpen <> D -> opened A D (TOpen :: t) = since A D t || opened A D t.
Proof. intros A D t N. cbn [opened]. destruct (tev_eq_dec TOpen D); [contradiction|]. destruct (tev_eq_dec TOpen TOpen); [reflexivity|contradiction]. Qed.
Lemma cnt_other : forall x y t, x <> y -> cnt (x :: t) y = cnt t y.
Proof. intros x y t N. apply count_occ_cons_neq. exact N. Qed.
Lemma cnt_same : forall x t, cnt (x :: t) x = S (cnt t x).
Proof. intros x t. apply count_occ_cons_eq. reflexivity. Qed.

(** The part of the state that matters *)
Lemma req_same : forall b s s', s_trace s' = s_trace s -> s_pending s' = s_pending s -> s_reload s' = s_reload s -> s_reset s' = s_reset s -> req b s -> req b s'.
Proof.
  intros b s s' E1 E2 E3 E4 [Q1 Q2 Q3]. assert (E5 : rflag b s' = rflag b s) by (destruct b; assumption).
  constructor; rewrite E1, ?E2, E5; assumption.
Qed.
Definition dull (b : bool) (x : tev) : Prop := x <> TArrive (rsig b) /\ x <> rdone b /\ x <> TOpen.
Lemma req_say : forall b x s, dull b x -> req b s -> req b (say x s).
Proof.
  intros b x s (D1 & D2 & D3) [Q1 Q2 Q3]. constructor; cbn [s_trace say s_pending].
  - rewrite since_other by assumption. exact Q1.
  - rewrite opened_other by assumption. exact Q2.
  - rewrite !cnt_other by assumption. exact Q3.
Qed.

Lemma member_one : forall g h, member g [h] = sig_eqb g h.
Proof. intros g h. cbn [member existsb]. apply orb_false_r. Qed.
Lemma noted_flag : forall b c l s s', noted c l s s' -> rflag b s' = rflag b s || member (rsig b) l.
Proof. intros [|] c l s s' N; apply N. Qed.
Lemma rsig_handled : forall b, init_disp (rsig b) = Handler.
Proof. intros [|]; reflexivity. Qed.
Ltac neq := first [discriminate | match goal with b : bool |- _ => destruct b; discriminate end | congruence].

(** A signal is generated *)
Lemma req_generate : forall b c h s, plain s -> req b s -> fin (s_pc (generate c h (say (TArrive h) s))) = false -> req b (generate c h (say (TArrive h) s)).
Proof.
  intros b c h s P Q F. pose proof (generate_view c h (say (TArrive h) s) P) as V. remember (generate c h (say (TArrive h) s)) as s' eqn:Es. clear Es.
  destruct (sig_eq_dec h (rsig b)) as [->|N].
  - destruct Q as [Q1 Q2 Q3]. destruct V as [D|l D Hh Hl|D Hh].
    + rewrite rsig_handled in D. discriminate.
    + assert (M : member (rsig b) l = true) by (apply member_in, Hl; right; reflexivity).
      constructor; cbn [s_trace s_pending set_pc set_pending say].
      * rewrite M. reflexivity.
      * rewrite opened_other by neq. exact Q2.
      * rewrite cnt_other by neq. rewrite cnt_same, M. change (rflag b (set_pc _ (set_pending l _))) with (rflag b s) in *.
        replace (rflag b (set_pc (wake (s_pc (say (TArrive (rsig b)) s))) (set_pending l (say (TArrive (rsig b)) s)))) with (rflag b s) by (destruct b; reflexivity).
        cbn [b2n]. lia.
    + set (s1 := set_pc (wake (s_pc (say (TArrive (rsig b)) s))) (say (TArrive (rsig b)) s)) in *.
      assert (O : over (deliver c (rsig b) s1) = false) by (unfold over; destruct (s_pc (deliver c (rsig b) s1)); try discriminate; reflexivity).
      destruct (deliver_noted c (rsig b) s1 P O) as [Nt Sp]. pose proof (deliver_frame c (rsig b) s1) as Fr.
      assert (Fl : rflag b (deliver c (rsig b) s1) = true) by (rewrite (noted_flag b _ _ _ _ Nt), member_one, sig_eqb_refl; apply orb_true_r).
      constructor; rewrite Fl.
      * intros _. apply orb_true_r.
      * reflexivity.
      * rewrite (f_trace _ _ Fr), Sp. change (s_trace s1) with (TArrive (rsig b) :: s_trace s). change (s_pending s1) with (s_pending s).
        rewrite cnt_other by neq. rewrite cnt_same. cbn [b2n]. lia.
  - assert (Q' : req b (say (TArrive h) s)) by (apply req_say; [repeat split; neq | exact Q]). destruct Q' as [Q1 Q2 Q3].
    assert (Ne : sig_eqb (rsig b) h = false) by (destruct (sig_eqb (rsig b) h) eqn:X; [apply sig_eqb_eq in X; congruence|reflexivity]).
    destruct V as [D|l D Hh Hl|D Hh].
    + constructor; assumption.
    + assert (M : member (rsig b) l = member (rsig b) (s_pending (say (TArrive h) s))).
      { destruct (member (rsig b) l) eqn:A, (member (rsig b) (s_pending (say (TArrive h) s))) eqn:B; try reflexivity.
        - apply member_in, Hl in A as [A|A]; [apply member_in in A|]; congruence.
        - apply member_in in B. assert (X : In (rsig b) l) by (apply Hl; left; exact B). apply member_in in X. congruence. }
      assert (Fl : rflag b (set_pc (wake (s_pc (say (TArrive h) s))) (set_pending l (say (TArrive h) s))) = rflag b (say (TArrive h) s)) by (destruct b; reflexivity).
      constructor; rewrite Fl; cbn [s_pending set_pc set_pending]; rewrite ?M; assumption.
    + set (s1 := set_pc (wake (s_pc (say (TArrive h) s))) (say (TArrive h) s)) in *.
      assert (O : over (deliver c h s1) = false) by (unfold over; destruct (s_pc (deliver c h s1)); try discriminate; reflexivity).
      destruct (deliver_noted c h s1 P O) as [Nt Sp]. pose proof (deliver_frame c h s1) as Fr.
      assert (Fl : rflag b (deliver c h s1) = rflag b s) by (rewrite (noted_flag b _ _ _ _ Nt), member_one, Ne, orb_false_r; destruct b; reflexivity).
      assert (Fl2 : rflag b (say (TArrive h) s) = rflag b s) by (destruct b; reflexivity).
      constructor; rewrite ?Fl, ?(f_trace _ _ Fr), ?Sp; rewrite Fl2 in *; assumption.
Qed.
(** The end of a child *)
Lemma req_chld : forall b c s, plain s -> req b s -> fin (s_pc (generate c SIGCHLD s)) = false -> req b (generate c SIGCHLD s).
Proof.
  intros b c s P [Q1 Q2 Q3] F. pose proof (generate_view c SIGCHLD s P) as V. remember (generate c SIGCHLD s) as s' eqn:Es. clear Es.
  destruct V as [D|l D Hh Hl|D Hh]; [discriminate| |].
  - assert (M : member (rsig b) l = member (rsig b) (s_pending s)).
    { destruct (member (rsig b) l) eqn:A, (member (rsig b) (s_pending s)) eqn:B; try reflexivity.
      - apply member_in, Hl in A as [A|A]; [apply member_in in A; congruence|destruct b; discriminate].
      - apply member_in in B. assert (X : In (rsig b) l) by (apply Hl; left; exact B). apply member_in in X. congruence. }
    assert (Fl : rflag b (set_pc (wake (s_pc s)) (set_pending l s)) = rflag b s) by (destruct b; reflexivity).
    constructor; rewrite ?Fl; cbn [s_trace s_pending set_pc set_pending]; rewrite ?M; assumption.
  - set (s1 := set_pc (wake (s_pc s)) s) in *.
    assert (O : over (deliver c SIGCHLD s1) = false) by (unfold over; destruct (s_pc (deliver c SIGCHLD s1)); try discriminate; reflexivity).
    destruct (deliver_noted c SIGCHLD s1 P O) as [Nt Sp]. pose proof (deliver_frame c SIGCHLD s1) as Fr.
    assert (Fl : rflag b (deliver c SIGCHLD s1) = rflag b s) by (rewrite (noted_flag b _ _ _ _ Nt); destruct b; apply orb_false_r).
    constructor; rewrite ?Fl, ?(f_trace _ _ Fr), ?Sp; assumption.
Qed.
(** Signals are let through *)
Lemma req_open : forall b c s s1, req b s -> frame s s1 -> s_pending s1 = [] -> noted c (s_pending s) s s1 -> req b (say TOpen s1).
Proof.
  intros b c s s1 [Q1 Q2 Q3] Fr Sp Nt. pose proof (noted_flag b _ _ _ _ Nt) as Fl.
  assert (F2 : rflag b (say TOpen s1) = rflag b s1) by (destruct b; reflexivity).
  constructor; cbn [s_trace s_pending say]; rewrite F2, ?(f_trace _ _ Fr), ?Sp, Fl.
  - rewrite since_other by neq. intros H. apply Q1 in H. rewrite orb_comm, orb_false_r, orb_comm. exact H.
  - rewrite opened_open by neq. intros H. apply orb_prop in H as [H|H]; [apply Q1 in H; rewrite orb_comm; exact H | apply Q2 in H; rewrite H; reflexivity].
  - rewrite !cnt_other by neq. cbn [member existsb b2n]. destruct (rflag b s), (member (rsig b) (s_pending s)); cbn [b2n orb] in *; lia.
Qed.
Lemma req_some : forall b c l s s', req b s -> frame s s' -> (forall g, In g l -> In g (s_pending s)) ->
  (forall g, In g (s_pending s') <-> In g (s_pending s) /\ ~ In g l) -> noted c l s s' -> req b s'.
Proof.
  intros b c l s s' [Q1 Q2 Q3] Fr Sub Sp Nt. pose proof (noted_flag b _ _ _ _ Nt) as Fl.
  assert (M : member (rsig b) (s_pending s') = member (rsig b) (s_pending s) && negb (member (rsig b) l)).
  { destruct (member (rsig b) (s_pending s')) eqn:A; symmetry.
    - apply member_in, Sp in A as [A B]. apply member_in in A. rewrite A. destruct (member (rsig b) l) eqn:X; [apply member_in in X; contradiction|reflexivity].
    - destruct (member (rsig b) (s_pending s)) eqn:B; [|reflexivity]. destruct (member (rsig b) l) eqn:X; [reflexivity|]. exfalso.
      assert (Y : In (rsig b) (s_pending s')) by (apply Sp; split; [apply member_in; exact B | intros Z; apply member_in in Z; congruence]).
      apply member_in in Y. congruence. }
  assert (Ml : member (rsig b) l = true -> member (rsig b) (s_pending s) = true) by (intros X; apply member_in, Sub, member_in; apply member_in in X; apply member_in; exact X).
  constructor; rewrite (f_trace _ _ Fr), ?M, Fl.
  - intros H. apply Q1 in H. destruct (member (rsig b) (s_pending s)), (member (rsig b) l), (rflag b s); try reflexivity; discriminate.
  - intros H. apply Q2 in H. rewrite H. reflexivity.
  - destruct (member (rsig b) (s_pending s)), (member (rsig b) l), (rflag b s); cbn [b2n orb andb negb] in *; try lia; specialize (Ml eq_refl); discriminate.
Qed.

Lemma generate_trace : forall c g s, s_trace (generate c g s) = s_trace s.
Proof.
  intros c g s. assert (D : forall s, s_trace (deliver c g s) = s_trace s) by (intros s0; apply deliver_frame).
  unfold generate. destruct (s_disp s g); try reflexivity;
    (destruct (s_mask s g || _); cbv zeta; rewrite wake_eq; [destruct (member g (s_pending s)); reflexivity | rewrite D; reflexivity]).
Qed.
Lemma goto_trace : forall p s, s_trace (goto p s) = s_trace s.
Proof. intros p s. unfold goto. destruct (over s); reflexivity. Qed.
Lemma deliver_all_trace : forall c order s s', deliver_all c order s = Some s' -> s_trace s' = TOpen :: s_trace s.
Proof.
  intros c order s s' H. unfold deliver_all in H. destruct (same order (s_pending s)); [|discriminate]. injection H as <-. cbn [s_trace say].
  rewrite (f_trace _ _ (fold_frame c order s)). reflexivity.
Qed.

Definition trace_ok (b : bool) (t : list tev) : Prop :=
  good (TArrive (rsig b)) (rdone b) t /\ (cnt t (rdone b) <= cnt t (TArrive (rsig b)))%nat.
Lemma trace_cons : forall b x t, trace_ok b t -> x <> rdone b -> x <> TIter -> trace_ok b (x :: t).
Proof.
  intros b x t [G N] X1 X2. split; [split; [exact G|contradiction]|]. rewrite cnt_other by assumption.
  destruct (tev_eq_dec x (TArrive (rsig b))) as [->|]; [rewrite cnt_same; lia | rewrite cnt_other by assumption; exact N].
Qed.
Lemma trace_same : forall b s s', s_trace s' = s_trace s -> trace_ok b (s_trace s) -> trace_ok b (s_trace s').
Proof. intros b s s' -> H. exact H. Qed.

Lemma wait_requests : forall b c order w s s', live c s -> s_pc s = PWait -> req b s -> wait_step c order w s = Some s' ->
  (s_trace s' = s_trace s \/ s_trace s' = TOpen :: s_trace s) /\ (fin (s_pc s') = false -> req b s').
Proof.
  intros b c order w s s' L Epc Q H. pose proof (l_plain _ _ L) as P. unfold wait_step in H. destruct (c_epoll c) eqn:Ep.
  - assert (Some1 : forall l p, forallb (fun g => member g (s_pending s)) l = true -> s' = goto p (set_mask init_mask (fold_left (deliver1 c) l s)) ->
        (s_trace s' = s_trace s \/ s_trace s' = TOpen :: s_trace s) /\ (fin (s_pc s') = false -> req b s')).
    { intros l p Sub ->. pose proof (fold_frame c l s) as Fr. split; [left; rewrite goto_trace; apply Fr|]. intros Ff. destruct (goto_fin _ _ Ff) as [O ->].
      destruct (fold_noted c l s P O) as [Nt Sp]. apply (req_same b (fold_left (deliver1 c) l s)); try reflexivity.
      apply (req_some b c l s); try assumption. rewrite forallb_forall in Sub. intros g G. apply member_in, Sub, G. }
    destruct w as [| |async l|l].
    + destruct (s_pending s); [|discriminate]. injection H as <-. split; [left; reflexivity|]. intros _. apply (req_same b s); try reflexivity. exact Q.
    + destruct (s_pending s) eqn:Es; [discriminate|]. destruct (deliver_all c order s) as [s1|] eqn:D; [|discriminate]. cbn [option_map] in H. injection H as <-.
      split; [right; rewrite goto_trace; exact (deliver_all_trace _ _ _ _ D)|]. intros Ff.
      destruct (deliver_all_view _ _ _ _ P D) as (s2 & -> & Fr & X). destruct (goto_fin _ _ Ff) as [O ->]. destruct (X O) as [Sp Nt].
      apply (req_same b (say TOpen s2)); try reflexivity. apply (req_open b c s); assumption.
    + destruct (forallb (fun g => member g (s_pending s)) l) eqn:Sub; [|discriminate]. destruct (negb async || _); [|discriminate]. injection H as <-. exact (Some1 l _ Sub eq_refl).
    + destruct (forallb (fun g => member g (s_pending s)) l) eqn:Sub; [|discriminate]. injection H as <-. exact (Some1 l _ Sub eq_refl).
  - assert (X : forall p, (s_trace (set_pc p s) = s_trace s \/ s_trace (set_pc p s) = TOpen :: s_trace s) /\ (fin (s_pc (set_pc p s)) = false -> req b (set_pc p s))).
    { intros p. split; [left; reflexivity|]. intros _. apply (req_same b s); try reflexivity. exact Q. }
    destruct w as [| |async l|l].
    + destruct (s_queue s =? 0)%nat; [|discriminate]. injection H as <-. apply X.
    + injection H as <-. apply X.
    + destruct (negb async || (0 <? s_queue s)%nat); [|discriminate]. injection H as <-. apply X.
    + injection H as <-. apply X.
Qed.

Lemma next_requests : forall b c order w s s', (fin (s_pc s) = false -> live c s /\ req b s) -> trace_ok b (s_trace s) -> next c order w s = Some s' ->
  trace_ok b (s_trace s') /\ (fin (s_pc s') = false -> req b s').
Proof.
  intros b c order w s s' LQ T H. unfold next in H.
  assert (Sm : forall s2, s_trace s2 = s_trace s -> s_pending s2 = s_pending s -> s_reload s2 = s_reload s -> s_reset s2 = s_reset s -> fin (s_pc s) = false ->
    trace_ok b (s_trace s2) /\ (fin (s_pc s2) = false -> req b s2)).
  { intros s2 E1 E2 E3 E4 F. split; [rewrite E1; exact T|]. intros _. destruct (LQ F) as [_ Q]. apply (req_same b s); assumption. }
  assert (Sy : forall x s2, s_trace s2 = s_trace s -> s_pending s2 = s_pending s -> s_reload s2 = s_reload s -> s_reset s2 = s_reset s -> fin (s_pc s) = false -> dull b x -> x <> TIter ->
    trace_ok b (s_trace (say x s2)) /\ (fin (s_pc (say x s2)) = false -> req b (say x s2))).
  { intros x s2 E1 E2 E3 E4 F D X. split; [cbn [s_trace say]; rewrite E1; apply trace_cons; [exact T|apply D|exact X]|].
    intros _. apply req_say; [exact D|]. destruct (LQ F) as [_ Q]. apply (req_same b s); assumption. }
  assert (Dl : forall x, match x with TArrive _ | TOpen | TReload | TReset => False | _ => True end -> dull b x) by (intros x Hx; unfold dull; destruct b, x; repeat split; try discriminate; contradiction).
  destruct (s_pc s) eqn:Epc; try discriminate; cbn [fin] in *.
  - injection H as <-. apply Sm; reflexivity.
  - destruct (s_term s) eqn:Et; injection H as <-.
    + apply Sy; try reflexivity; [apply Dl; exact I|discriminate].
    + destruct (LQ eq_refl) as [L Q]. destruct T as [G N]. split.
      * cbn [s_trace say set_pc]. split; [|rewrite !cnt_other by neq; exact N]. cbn [good]. split; [exact G|]. intros _.
        destruct (opened (TArrive (rsig b)) (rdone b) (s_trace s)) eqn:O; [|reflexivity]. apply (q_opened _ _ Q) in O.
        pose proof (l_flags _ _ L) as Fl. unfold flags in Fl. rewrite Epc in Fl. destruct Fl as (A & B & _). unfold rflag in O. destruct b; congruence.
      * intros _. apply req_say; [apply Dl; exact I|]. apply (req_same b s); try reflexivity. exact Q.
  - injection H as <-. apply Sm; reflexivity.
  - destruct (c_epoll c) eqn:Ep; [injection H as <-; apply Sm; reflexivity|].
    destruct (deliver_all c order (set_mask no_mask s)) as [s1|] eqn:D; [|discriminate]. injection H as <-. destruct (LQ eq_refl) as [L Q].
    split; [rewrite goto_trace, (deliver_all_trace _ _ _ _ D); apply trace_cons; [exact T|neq|neq]|]. intros Ff.
    destruct (deliver_all_view _ _ _ _ (l_plain _ _ L : plain (set_mask no_mask s)) D) as (s2 & -> & Fr & X). destruct (goto_fin _ _ Ff) as [O ->]. destruct (X O) as [Sp Nt].
    apply (req_same b (say TOpen s2)); try reflexivity. apply (req_open b c (set_mask no_mask s)); try assumption. apply (req_same b s); try reflexivity. exact Q.
  - injection H as <-. apply Sm; reflexivity.
  - destruct (LQ eq_refl) as [L Q]. destruct (wait_requests b _ _ _ _ _ L Epc Q H) as [[E|E] X]; (split; [rewrite E|exact X]); [exact T|apply trace_cons; [exact T|neq|neq]].
  - destruct (LQ eq_refl) as [L Q]. assert (Lw : live c (set_pc PWait s)) by (pose proof (wake_live c s L) as Y; rewrite Epc in Y; exact Y).
    assert (Qw : req b (set_pc PWait s)) by (apply (req_same b s); try reflexivity; exact Q).
    destruct w; try discriminate; (destruct (wait_requests b _ _ _ _ _ Lw eq_refl Qw H) as [[E|E] X]; (split; [rewrite E|exact X]); [exact T|apply trace_cons; [exact T|neq|neq]]).
  - injection H as <-. apply Sm; reflexivity.
  - injection H as <-. destruct async; apply Sm; reflexivity.
  - destruct (s_reload s) eqn:Er; injection H as <-; [|apply Sm; try reflexivity; exact Er]. destruct (LQ eq_refl) as [L Q]. destruct b.
    + destruct T as [G N]. destruct Q as [Q1 Q2 Q3]. cbn [rflag] in Q3. rewrite Er in Q3. cbn [b2n rsig rdone] in *. split.
      * split; [split; [exact G|discriminate]|]. cbn [s_trace say set_pc set_reload]. rewrite cnt_same, cnt_other by neq. cbn [rdone rsig]. lia.
      * intros _. constructor; cbn [s_trace say set_pc set_reload rdone rsig rflag s_reload s_pending].
        -- rewrite since_D. discriminate.
        -- rewrite opened_D. discriminate.
        -- rewrite cnt_same, cnt_other by neq. cbn [b2n]. lia.
    + split; [apply trace_cons; [exact T|neq|neq]|]. intros _. apply req_say; [repeat split; neq|]. destruct Q as [Q1 Q2 Q3]. constructor; assumption.
  - injection H as <-. apply Sm; reflexivity.
  - destruct (s_reset s) eqn:Er; injection H as <-; [|apply Sm; try reflexivity; exact Er]. destruct (LQ eq_refl) as [L Q]. destruct b.
    + split; [apply trace_cons; [exact T|neq|neq]|]. intros _. apply req_say; [repeat split; neq|]. destruct Q as [Q1 Q2 Q3]. constructor; assumption.
    + destruct T as [G N]. destruct Q as [Q1 Q2 Q3]. cbn [rflag] in Q3. rewrite Er in Q3. cbn [b2n rsig rdone] in *. split.
      * split; [split; [exact G|discriminate]|]. cbn [s_trace say set_pc set_reset]. rewrite cnt_same, cnt_other by neq. cbn [rdone rsig]. lia.
      * intros _. constructor; cbn [s_trace say set_pc set_reset rdone rsig rflag s_reset s_pending].
        -- rewrite since_D. discriminate.
        -- rewrite opened_D. discriminate.
        -- rewrite cnt_same, cnt_other by neq. cbn [b2n]. lia.
  - injection H as <-. apply Sm; reflexivity.
  - destruct (s_child s); injection H as <-; apply Sm; reflexivity.
  - destruct (nth_error (s_pids s) i); [destruct (find_kid n (s_kids s)) as [k|]; [destruct (k_ended k)|]|]; injection H as <-;
      first [apply Sm; reflexivity | apply Sy; try reflexivity; [apply Dl; exact I | discriminate]].
  - injection H as <-. apply Sm; reflexivity.
  - destruct (s_term s); [|discriminate]. injection H as <-. split; [exact T|discriminate].
  - destruct (deliver_all c order (set_mask no_mask s)) as [s1|] eqn:D; [|discriminate]. injection H as <-.
    split; [rewrite goto_trace, (deliver_all_trace _ _ _ _ D); apply trace_cons; [exact T|neq|neq]|]. intros Ff. destruct (goto_fin _ _ Ff) as [_ E]. rewrite E in Ff. discriminate.
  - destruct (s_term s); [|discriminate]. injection H as <-. split; [rewrite goto_trace, (f_trace _ _ (deliver_frame c s0 s)); exact T|].
    intros Ff. destruct (goto_fin _ _ Ff) as [_ E]. rewrite E in Ff. discriminate.
Qed.

Lemma step_requests : forall b c s e s', basic c s -> trace_ok b (s_trace s) /\ (fin (s_pc s) = false -> req b s) -> step c s e = Some s' ->
  trace_ok b (s_trace s') /\ (fin (s_pc s') = false -> req b s').
Proof.
  intros b c s e s' B [T Q] H. pose proof (step_fin c s e s') as Sf.
  assert (F : fin (s_pc s') = false -> fin (s_pc s) = false) by (intros F'; destruct (fin (s_pc s)) eqn:F; [specialize (Sf eq_refl H); congruence|reflexivity]).
  unfold step in H. destruct (over s); [discriminate|].
  assert (Sm : s_trace s' = s_trace s -> s_pending s' = s_pending s -> s_reload s' = s_reload s -> s_reset s' = s_reset s ->
    trace_ok b (s_trace s') /\ (fin (s_pc s') = false -> req b s')).
  { intros E1 E2 E3 E4. split; [rewrite E1; exact T|]. intros F2. apply (req_same b s); try assumption. apply Q, F, F2. }
  destruct e.
  - injection H as <-. split; [rewrite generate_trace; apply trace_cons; [exact T|neq|neq]|]. intros F2. specialize (F F2). apply req_generate; [apply (B F)|exact (Q F)|exact F2].
  - destruct (find_kid pid (s_kids s)) as [k|]; [|discriminate]. destruct (k_ended k); [discriminate|]. injection H as <-.
    split; [rewrite generate_trace; apply trace_cons; [exact T|neq|neq]|]. intros F2. specialize (F F2). apply req_chld; [apply (B F)| |exact F2].
    apply req_say; [repeat split; neq|]. apply (req_same b s); try reflexivity. exact (Q F).
  - destruct (known pid s); [discriminate|]. injection H as <-. apply Sm; reflexivity.
  - destruct (find_kid pid (s_kids s)) as [[? [|] [|]]|]; try discriminate. injection H as <-. apply Sm; reflexivity.
  - injection H as <-. destruct (enqueue_rest c (set_pc (wake (s_pc s)) s)) as (E1 & E2 & E3 & E4 & E5 & E6).
    rewrite wake_eq in *. apply Sm; try assumption. rewrite (f_trace _ _ (enqueue_frame c _)). reflexivity.
  - destruct (s_forked s); [discriminate|]. destruct (known pid s || negb (runs_commands (s_pc s))); [discriminate|]. injection H as <-.
    split; [apply trace_cons; [exact T|neq|neq]|]. intros F2. apply req_say; [repeat split; neq|]. apply (req_same b s); try reflexivity. apply Q, F, F2.
  - destruct (s_forked s); [|discriminate]. injection H as <-. apply Sm; reflexivity.
  - destruct (s_forked s); [discriminate|]. apply (next_requests b c order w s); try assumption. intros Ff. split; [exact (B Ff)|exact (Q Ff)].
Qed.
Lemma run_requests : forall b c s, run c s -> trace_ok b (s_trace s) /\ (fin (s_pc s) = false -> req b s).
Proof.
  intros b c s H. induction H as [|s e s' H IH E].
  - split; [split; [exact I|apply le_n]|]. intros _. constructor; try discriminate. destruct b; apply le_n.
  - exact (step_requests b c s e s' (run_basic c s H) IH E).
Qed.
