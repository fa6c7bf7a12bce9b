(** Basic facts: what the delivery of signals changes *)
From Coq Require Import Lia ZifyBool ZifyNat ZifyN.
From Verif Require Import Base SigModel SigSpec.

(** *** Traces, the latest first: [A] has happened after the last [D]; and signals were let through since *)
Fixpoint since (A D : tev) (t : list tev) : bool :=
  match t with [] => false | x :: t => if tev_eq_dec x D then false else if tev_eq_dec x A then true else since A D t end.
Fixpoint opened (A D : tev) (t : list tev) : bool :=
  match t with [] => false | x :: t => if tev_eq_dec x D then false else if tev_eq_dec x TOpen then since A D t || opened A D t else opened A D t end.
Fixpoint good (A D : tev) (t : list tev) : Prop :=
  match t with [] => True | x :: t => good A D t /\ (x = TIter -> opened A D t = false) end.

Lemma since_app : forall A D x y, A <> D -> ~ In D x -> since A D (x ++ A :: y) = true.
Proof.
  intros A D x y N. induction x as [|z x IH]; cbn [since app]; intros H.
  - destruct (tev_eq_dec A D); [contradiction|]. destruct (tev_eq_dec A A); [reflexivity|contradiction].
  - destruct (tev_eq_dec z D) as [->|]; [exfalso; apply H; left; reflexivity|].
    destruct (tev_eq_dec z A); [reflexivity|]. apply IH. intros X. apply H. right. exact X.
Qed.
Lemma opened_app : forall A D x y z, A <> D -> TOpen <> D -> ~ In D x -> ~ In D y -> opened A D (x ++ TOpen :: y ++ A :: z) = true.
Proof.
  intros A D x y z N No. induction x as [|w x IH]; cbn [opened app]; intros Hx Hy.
  - destruct (tev_eq_dec TOpen D); [contradiction|]. destruct (tev_eq_dec TOpen TOpen); [|contradiction]. rewrite since_app by assumption. reflexivity.
  - destruct (tev_eq_dec w D) as [->|]; [exfalso; apply Hx; left; reflexivity|].
    assert (I : opened A D (x ++ TOpen :: y ++ A :: z) = true) by (apply IH; [intros X; apply Hx; right; exact X | exact Hy]).
    destruct (tev_eq_dec w TOpen); rewrite I; [apply orb_true_r | reflexivity].
Qed.
Lemma good_suffix : forall A D x y, good A D (x ++ TIter :: y) -> opened A D y = false.
Proof. intros A D x y. induction x as [|w x IH]; cbn [good app]; intros [G H]; [apply H; reflexivity | apply IH; exact G]. Qed.
Lemma good_served : forall A D t, A <> D -> TOpen <> D -> good A D t ->
  forall a b d e, rev t = a ++ A :: b ++ TOpen :: d ++ TIter :: e -> In D (b ++ d).
Proof.
  intros A D t N No G a b d e E.
  assert (E2 : t = rev e ++ TIter :: (rev d ++ TOpen :: rev b ++ A :: rev a)).
  { rewrite <- (rev_involutive t), E. repeat (rewrite rev_app_distr; cbn [rev]). rewrite <- !app_assoc. cbn [app]. reflexivity. }
  rewrite E2 in G. apply good_suffix in G.
  destruct (in_dec tev_eq_dec D (b ++ d)) as [|n]; [assumption|]. exfalso.
  rewrite opened_app in G; [discriminate | assumption | assumption | |]; intros X; apply n; apply in_or_app; apply in_rev in X; [right|left]; exact X.
Qed.

(** *** Delivery *)
Lemma sig_eqb_refl : forall g, sig_eqb g g = true.
Proof. intros g. unfold sig_eqb. destruct (sig_eq_dec g g); [reflexivity|contradiction]. Qed.
Lemma sig_eqb_eq : forall g h, sig_eqb g h = true <-> g = h.
Proof. intros g h. unfold sig_eqb. destruct (sig_eq_dec g h); split; congruence. Qed.
Lemma member_in : forall g l, member g l = true <-> In g l.
Proof.
  intros g l. unfold member. rewrite existsb_exists. split.
  - intros (h & H & E). apply sig_eqb_eq in E. subst. exact H.
  - intros H. exists g. split; [exact H | apply sig_eqb_refl].
Qed.
Lemma remove_in : forall g h l, In h (remove g l) <-> In h l /\ h <> g.
Proof.
  intros g h l. unfold remove. rewrite filter_In, Bool.negb_true_iff. split; intros [H N]; (split; [exact H|]).
  - intros E. apply sig_eqb_eq in E. congruence.
  - destruct (sig_eqb h g) eqn:E; [apply sig_eqb_eq in E; contradiction | reflexivity].
Qed.
Lemma same_in : forall a b, same a b = true -> forall g, In g a <-> In g b.
Proof.
  intros a b H g. unfold same in H. apply andb_prop in H as [H1 H2]. rewrite forallb_forall in H1, H2.
  split; intros X; [apply H1 in X | apply H2 in X]; apply member_in in X; exact X.
Qed.

(** What delivery leaves as it is *)
Record frame (s s' : st) : Prop := mk_frame {
  f_pc : s_pc s' = s_pc s \/ exists g, s_pc s' = PDead g;
  f_mask : s_mask s' = s_mask s; f_disp : s_disp s' = s_disp s; f_kids : s_kids s' = s_kids s;
  f_forked : s_forked s' = s_forked s; f_pids : s_pids s' = s_pids s; f_trace : s_trace s' = s_trace s;
  f_queue : (s_queue s <= s_queue s')%nat }.
Lemma frame_refl : forall s, frame s s.
Proof. intros s. constructor; try reflexivity. left; reflexivity. Qed.
Lemma frame_trans : forall a b d, frame a b -> frame b d -> frame a d.
Proof.
  intros a b d [F1 F2 F3 F4 F5 F6 F7 F8] [G1 G2 G3 G4 G5 G6 G7 G8]. constructor; try congruence; [|lia].
  destruct G1 as [G1|G1]; [rewrite G1; exact F1 | right; exact G1].
Qed.
Lemma frame_over : forall s s', frame s s' -> over s' = false -> over s = false /\ s_pc s' = s_pc s.
Proof.
  intros s s' F O. destruct (f_pc _ _ F) as [E|[g E]]; [|unfold over in O; rewrite E in O; discriminate].
  split; [|exact E]. unfold over in *. rewrite E in O. exact O.
Qed.

Definition handled (g : sig) : bool := match init_disp g with Handler => true | _ => false end.
Definition is_term (g : sig) : bool := match g with SIGTERM | SIGQUIT | SIGINT => true | _ => false end.
Lemma is_term_spec : forall g, is_term g = true <-> terminating g.
Proof. intros g. unfold terminating. destruct g; cbn [is_term]; split; intros H; try discriminate; try reflexivity; try tauto; destruct H as [H|[H|H]]; discriminate. Qed.

Lemma on_signal_frame : forall c g s, frame s (on_signal c g s).
Proof.
  intros c g s. destruct g; cbn [on_signal]; try apply frame_refl;
    destruct (c_epoll c); unfold enqueue; cbn [s_queue set_reload set_reset set_child set_term]; try (destruct (s_queue s <? c_cap c)%nat);
    constructor; try reflexivity; try (left; reflexivity); cbn [s_queue set_queue set_reload set_reset set_child set_term]; lia.
Qed.
Lemma deliver_frame : forall c g s, frame s (deliver c g s).
Proof.
  intros c g s. unfold deliver. destruct (over s); [apply frame_refl|]. destruct (s_disp s g); [|apply frame_refl|apply on_signal_frame].
  destruct (kills g); [|apply frame_refl]. constructor; try reflexivity. right; exists g; reflexivity.
Qed.

(** The flags after delivery, if the process goes on *)
Record noted (c : conf) (l : list sig) (s s' : st) : Prop := mk_noted {
  n_reload : s_reload s' = s_reload s || member SIGHUP l;
  n_reset : s_reset s' = s_reset s || member SIGUSR2 l;
  n_child : s_child s' = s_child s || member SIGCHLD l;
  n_term : (s_term s' = s_term s /\ existsb is_term l = false) \/ exists g, s_term s' = Some g /\ is_term g = true /\ In g l;
  n_queue : c_epoll c = false -> (0 < c_cap c)%nat -> existsb handled l = true -> (0 < s_queue s')%nat }.
Definition plain (s : st) : Prop := forall g, s_disp s g = init_disp g.

Lemma deliver_noted : forall c g s, plain s -> over (deliver c g s) = false -> noted c [g] s (deliver c g s) /\ s_pending (deliver c g s) = s_pending s.
Proof.
  intros c g s P. unfold deliver. destruct (over s) eqn:O; [intros; congruence|]. rewrite P.
  destruct g; cbn [init_disp kills on_signal]; intros O2;
    try (match type of O2 with context [if ?k then set_pc _ _ else _] => destruct k end);
    try (unfold over in O2; cbn [s_pc set_pc] in O2; discriminate);
    (split; [|solve [destruct (c_epoll c); unfold enqueue; cbn [s_queue set_reload set_reset set_child set_term]; try destruct (s_queue s <? c_cap c)%nat; reflexivity]]);
    (constructor; [| | | |intros Ep Cap Hh; try discriminate Hh; rewrite Ep; unfold enqueue; cbn [s_queue set_reload set_reset set_child set_term];
         match goal with |- context [(?a <? ?b)%nat] => destruct (Nat.ltb_spec a b) end; cbn [s_queue set_queue set_reload set_reset set_child set_term]; lia]);
    destruct (c_epoll c); unfold enqueue; cbn [s_queue set_reload set_reset set_child set_term]; try destruct (s_queue s <? c_cap c)%nat;
         cbn [s_reload s_reset s_child s_term set_reload set_reset set_child set_term set_queue set_pc];
         try (destruct (s_reload s); reflexivity); try (destruct (s_reset s); reflexivity); try (destruct (s_child s); reflexivity);
    try (left; split; reflexivity);
    try (right; eexists; split; [reflexivity|]; split; [reflexivity|left; reflexivity]).
Qed.

Lemma noted_app : forall c x y a b d, frame b d -> noted c x a b -> noted c y b d -> noted c (x ++ y) a d.
Proof.
  intros c x y a b d F [A1 A2 A3 A4 A5] [B1 B2 B3 B4 B5].
  assert (M : forall g, member g (x ++ y) = member g x || member g y) by (intros g; apply existsb_app).
  constructor; try (rewrite M, orb_assoc; congruence).
  - rewrite existsb_app. destruct B4 as [[E Ey]|(g & E & T & I)].
    + destruct A4 as [[E2 Ex]|(g & E2 & T & I)].
      * left. rewrite Ex, Ey. split; [congruence|reflexivity].
      * right. exists g. split; [congruence|]. split; [exact T | apply in_or_app; left; exact I].
    + right. exists g. split; [exact E|]. split; [exact T | apply in_or_app; right; exact I].
  - intros Ep Cap H. rewrite existsb_app in H. apply orb_prop in H as [H|H]; [|exact (B5 Ep Cap H)].
    specialize (A5 Ep Cap H). pose proof (f_queue _ _ F). lia.
Qed.
Lemma deliver1_frame : forall c s g, frame s (deliver1 c s g).
Proof. intros c s g. unfold deliver1. apply (frame_trans _ (set_pending (remove g (s_pending s)) s)); [|apply deliver_frame]. constructor; try reflexivity. left; reflexivity. Qed.
Lemma fold_frame : forall c l s, frame s (fold_left (deliver1 c) l s).
Proof.
  intros c l. induction l as [|g l IH]; intros s; [apply frame_refl|]. cbn [fold_left]. apply (frame_trans _ (deliver1 c s g)); [apply deliver1_frame | apply IH].
Qed.
Lemma fold_noted : forall c l s, plain s -> over (fold_left (deliver1 c) l s) = false ->
  noted c l s (fold_left (deliver1 c) l s) /\ forall g, In g (s_pending (fold_left (deliver1 c) l s)) <-> In g (s_pending s) /\ ~ In g l.
Proof.
  intros c l. induction l as [|g l IH]; intros s P O; cbn [fold_left] in *.
  - split; [constructor; try (symmetry; apply orb_false_r); [left; split; reflexivity|discriminate]|]. intros g. cbn [In]. tauto.
  - pose proof (deliver1_frame c s g) as F. pose proof (fold_frame c l (deliver1 c s g)) as F2.
    destruct (frame_over _ _ F2 O) as [O1 _].
    assert (P1 : plain (deliver1 c s g)) by (intros h; rewrite (f_disp _ _ F); apply P).
    destruct (IH _ P1 O) as [N1 S1]. unfold deliver1 in O1.
    destruct (deliver_noted c g (set_pending (remove g (s_pending s)) s) P O1) as [N0 S0].
    split.
    + apply (noted_app c [g] l s (deliver1 c s g)); [exact F2| |exact N1]. destruct N0 as [M1 M2 M3 M4 M5]. constructor; assumption.
    + intros h. rewrite S1. unfold deliver1 at 1. rewrite S0. cbn [s_pending set_pending In]. rewrite remove_in. intuition congruence.
Qed.
