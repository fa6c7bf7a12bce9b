(** Proofs about L2TP offloading: effects of the single commands *)
From Coq Require Import List NArith Bool Lia ZifyBool ZifyN.
From Verif Require Import L2tpModel L2tpSpec.
Import ListNotations.
Local Open Scope N_scope.

Definition runs {A} (m : M A) (s : st) (Q : A -> st -> Prop) : Prop :=
  match m s with Done a s' => Q a s' | Ended | Spin => True | Bug | Hang | Wild | Stale => False end.
Lemma runs_bind : forall A B (m : M A) (f : A -> M B) s Q, runs m s (fun a s' => runs (f a) s' Q) -> runs (bind m f) s Q.
Proof. intros A B m f s Q H. unfold runs, bind in *. destruct (m s); try exact H. Qed.
Lemma runs_imp : forall A (m : M A) s (P Q : A -> st -> Prop), runs m s P -> (forall a s', P a s' -> Q a s') -> runs m s Q.
Proof. intros A m s P Q H I. unfold runs in *. destruct (m s); auto. Qed.
Lemma runs_then : forall A B (m : M A) (f : A -> M B) s P Q, runs m s P -> (forall a s', P a s' -> runs (f a) s' Q) -> runs (bind m f) s Q.
Proof. intros A B m f s P Q H I. apply runs_bind. eapply runs_imp; eauto. Qed.

(** Unaffected by Netlink *)
Definition frame (s s' : st) : Prop :=
  s_fds s' = s_fds s /\ s_next s' = s_next s /\ s_heap s' = s_heap s /\ s_peers s' = s_peers s.
Definition calm (s : st) : Prop := s_queue s = [] /\ s_skerr s = 0.
Definition same (s s' : st) : Prop :=
  frame s s' /\ s_tuns s' = s_tuns s /\ s_queue s' = s_queue s /\ s_skerr s' = s_skerr s /\ s_seq s' = s_seq s.
Lemma same_refl : forall s, same s s.
Proof. intros s. unfold same, frame. auto 10. Qed.
Lemma same_trans : forall s1 s2 s3, same s1 s2 -> same s2 s3 -> same s1 s3.
Proof. unfold same, frame. intros s1 s2 s3 ((A1 & A2 & A3 & A4) & A5 & A6 & A7 & A8) ((B1 & B2 & B3 & B4) & B5 & B6 & B7 & B8). repeat split; congruence. Qed.
Lemma frame_refl : forall s, frame s s.
Proof. unfold frame. auto. Qed.
Lemma frame_trans : forall s1 s2 s3, frame s1 s2 -> frame s2 s3 -> frame s1 s3.
Proof. unfold frame. intros s1 s2 s3 (A1 & A2 & A3 & A4) (B1 & B2 & B3 & B4). repeat split; congruence. Qed.

Lemma runs_ask : forall B (f : N -> M B) s Q, (forall a s', same s s' -> runs (f a) s' Q) -> runs (bind ask f) s Q.
Proof.
  intros B f s Q H. unfold runs, bind, ask. destruct (s_ans s) as [|a r]; [apply (H 0 s), same_refl | apply (H a (set_ans r s))].
  unfold same, frame. cbn. auto 10.
Qed.
Lemma runs_get : forall B (f : st -> M B) s Q, runs (f s) s Q -> runs (bind get f) s Q.
Proof. intros B f s Q H. exact H. Qed.
Lemma runs_put : forall B u (f : unit -> M B) s Q, runs (f tt) (u s) Q -> runs (bind (put u) f) s Q.
Proof. intros B u f s Q H. exact H. Qed.
Lemma runs_put' : forall u s (Q : unit -> st -> Prop), Q tt (u s) -> runs (put u) s Q.
Proof. intros u s Q H. exact H. Qed.
Lemma runs_ret : forall A (a : A) s (Q : A -> st -> Prop), Q a s -> runs (ret a) s Q.
Proof. intros A a s Q H. exact H. Qed.
Lemma runs_failure : forall B b (f : N -> M B) s Q,
  (forall a s', same s s' -> (b = true -> a = 0) -> runs (f a) s' Q) -> runs (bind (failure b) f) s Q.
Proof.
  intros B b f s Q H. unfold failure. destruct b.
  - apply runs_bind, runs_ret. apply H; [apply same_refl | reflexivity].
  - apply runs_ask. intros a s' Hs. apply H; [exact Hs | discriminate].
Qed.

(** ** Netlink *)

Definition last_ack (seq : N) (q : list msg) : Prop := exists r e, q = r ++ [mk_msg seq (Ack e)].
Lemma receive_frame : forall c seq q got s, (last_ack seq q \/ s_skerr s <> 0) ->
  runs (receive c seq q got) s (fun x s' => frame s s' /\ s_tuns s' = s_tuns s /\ s_seq s' = s_seq s).
Proof.
  intros c seq q. induction q as [|m r IH]; intros got s H.
  all: cbn [receive]; apply runs_failure; intros a s1 Hs Hz; apply runs_get; destruct (negb (a =? 0)) eqn:E1.
  all: try (apply runs_put, runs_put, runs_ret; destruct Hs as ((A1 & A2 & A3 & A4) & A5 & A6 & A7 & A8); unfold frame; cbn; repeat split; congruence).
  all: destruct (negb (s_skerr s1 =? 0)) eqn:E2.
  all: try (apply runs_put, runs_put, runs_put, runs_ret; destruct Hs as ((A1 & A2 & A3 & A4) & A5 & A6 & A7 & A8); unfold frame; cbn; repeat split; congruence).
  - destruct Hs as ((A1 & A2 & A3 & A4) & A5 & A6 & A7 & A8). destruct H as [(r & e & H)|H]; [destruct r; discriminate | lia].
  - assert (Hk : s_skerr s = 0) by (destruct Hs as ((A1 & A2 & A3 & A4) & A5 & A6 & A7 & A8); lia).
    destruct (seq_ok m seq) eqn:E3.
    + destruct (m_body m) eqn:E4.
      * eapply runs_imp; [apply IH|].
        -- destruct H as [(r' & e & H)|H]; [left | lia]. destruct r' as [|m' r']; [injection H as -> ->; discriminate|].
           injection H as -> ->. exists r', e. reflexivity.
        -- cbn beta. intros x s' (F & T & Sq). destruct Hs as (Fs & A5 & A6 & A7 & A8). split; [eapply frame_trans; eassumption | split; congruence].
      * destruct Hs as ((A1 & A2 & A3 & A4) & A5 & A6 & A7 & A8). apply runs_put. destruct (err =? 0); [|apply runs_put]; apply runs_ret; unfold frame; cbn; repeat split; congruence.
    + destruct Hs as ((A1 & A2 & A3 & A4) & A5 & A6 & A7 & A8). apply runs_put, runs_put, runs_ret; unfold frame; cbn; repeat split; congruence.
Qed.

Definition join (d : option (option N)) : option N := match d with Some v => v | None => None end.
Definition msgs (seq e : N) (d : option (option N)) : list msg :=
  match d with Some v => [mk_msg seq (Data v)] | None => [] end ++ [mk_msg seq (Ack e)].
Lemma handle_effect : forall c seq r s,
  runs (handle c seq r) s (fun _ s' => exists a n e d l, kernel r a n (s_fds s) (s_tuns s) = (e, d, l) /\
    frame s s' /\ s_tuns s' = l /\ s_seq s' = s_seq s /\
    (s_queue s' = s_queue s ++ msgs seq e d /\ s_skerr s' = s_skerr s \/
     c_reliable c = false /\ s_queue s' = s_queue s ++ (match d with Some v => [mk_msg seq (Data v)] | None => [] end) /\ s_skerr s' = ENOBUFS)).
Proof.
  intros c seq r s. unfold handle. apply runs_ask. intros a s1 H1. apply runs_ask. intros n s2 H2. apply runs_get.
  pose proof (same_trans _ _ _ H1 H2) as H. destruct (kernel r a n (s_fds s2) (s_tuns s2)) as [[e d] l] eqn:E.
  apply runs_failure. intros lost s3 H3 Hl. pose proof (same_trans _ _ _ H H3) as H'. apply runs_put, runs_put.
  assert (E' : kernel r a n (s_fds s) (s_tuns s) = (e, d, l)).
  { destruct H as ((A1 & A2 & A3 & A4) & A5 & A6 & A7 & A8). rewrite <- A1, <- A5. exact E. }
  destruct H' as ((A1 & A2 & A3 & A4) & A5 & A6 & A7 & A8).
  destruct (lost =? 0) eqn:El; apply runs_put'; exists a, n, e, d, l; (split; [exact E'|]); unfold frame, msgs; cbn.
  - repeat split; try congruence. left. split; [|congruence]. rewrite A6, app_assoc. reflexivity.
  - repeat split; try congruence. right. repeat split; [|congruence]. destruct (c_reliable c); [specialize (Hl eq_refl); subst; discriminate | reflexivity].
Qed.

(** Messages are received in order if nothing is lost *)
Lemma receive_calm : forall c seq e d s, c_reliable c = true -> s_skerr s = 0 ->
  runs (receive c seq (msgs seq e d) None) s (fun x s' => x = (e =? 0, join d) /\ calm s' /\ (e <> 0 -> s_errno s' = e)).
Proof.
  intros c seq e d s Hc Hk. unfold msgs.
  assert (Hok : forall b, seq_ok (mk_msg seq b) seq = true) by (intros b; unfold seq_ok; cbn; rewrite N.eqb_refl; apply orb_true_r).
  assert (Hack : forall got s0, s_skerr s0 = 0 -> runs (receive c seq [mk_msg seq (Ack e)] got) s0
     (fun x s' => x = (e =? 0, got) /\ calm s' /\ (e <> 0 -> s_errno s' = e))).
  { intros got s0 K. cbn [receive]. apply runs_failure. intros a s1 ((A1 & A2 & A3 & A4) & A5 & A6 & A7 & A8) Hz. rewrite (Hz Hc). cbn [N.eqb negb]. apply runs_get.
    rewrite A7, K. cbn [N.eqb negb]. rewrite Hok. cbn [m_body]. apply runs_put. destruct (e =? 0) eqn:E; [|apply runs_put]; apply runs_ret; unfold calm; cbn; repeat split; try congruence; lia. }
  destruct d as [v|]; cbn [app]; [|apply Hack; exact Hk].
  cbn [receive]. apply runs_failure. intros a s1 ((A1 & A2 & A3 & A4) & A5 & A6 & A7 & A8) Hz. rewrite (Hz Hc). cbn [N.eqb negb]. apply runs_get.
  rewrite A7, Hk. cbn [N.eqb negb]. rewrite Hok. cbn [m_body]. change (fun x s' => x = ((e =? 0), join (Some v)) /\ calm s' /\ (e <> 0 -> s_errno s' = e)) with
    (fun x s' => x = ((e =? 0), v) /\ calm s' /\ (e <> 0 -> s_errno s' = e)).
  replace (match v with Some x => Some x | None => None end) with v by (destruct v; reflexivity). apply Hack. congruence.
Qed.

Definition next_seq (s : st) : N := (s_seq s + 1) mod 2 ^ 32.
Definition nl_post (c : config) (r : request) (s : st) (x : bool * option N) (s' : st) : Prop :=
  frame s s' /\ s_seq s' = next_seq s /\
  (s_tuns s' = s_tuns s \/ exists a n e d, kernel r a n (s_fds s) (s_tuns s) = (e, d, s_tuns s')) /\
  (c_reliable c = true -> calm s -> calm s' /\
     exists a n e d, kernel r a n (s_fds s) (s_tuns s) = (e, d, s_tuns s') /\ x = (e =? 0, join d) /\ (e <> 0 -> s_errno s' = e)).
Lemma do_nl_effect : forall c r s, runs (do_nl c r) s (nl_post c r s).
Proof.
  intros c r s. unfold do_nl. apply runs_put, runs_get. apply runs_failure. intros a s1 H1 Hz.
  destruct (negb (a =? 0)) eqn:Ea.
  { apply runs_put, runs_ret. destruct H1 as ((A1 & A2 & A3 & A4) & A5 & A6 & A7 & A8). unfold nl_post, frame in *. cbn in A1, A2, A3, A4, A5, A6, A7, A8.
    split; [cbn; repeat split; congruence|]. split; [exact A8|]. split; [left; exact A5|].
    intros Hc. rewrite (Hz Hc) in Ea. discriminate. }
  eapply runs_then; [apply handle_effect|]. cbn beta. intros _ s2 (a' & n & e & d & l & E & F & T & Sq & Q). apply runs_get.
  destruct H1 as ((A1 & A2 & A3 & A4) & A5 & A6 & A7 & A8). cbn in A1, A2, A3, A4, A5, A6, A7, A8.
  assert (E' : kernel r a' n (s_fds s) (s_tuns s) = (e, d, l)) by congruence.
  assert (F2 : frame s s2) by (destruct F as (B1 & B2 & B3 & B4); unfold frame; repeat split; congruence).
  change (s_seq (set_seq ((s_seq s + 1) mod 2 ^ 32) s)) with (next_seq s) in *.
  assert (G : last_ack (next_seq s) (s_queue s2) \/ s_skerr s2 <> 0).
  { destruct Q as [(Q & _)|(_ & _ & Q)]; [left | right; rewrite Q; discriminate].
    rewrite Q. unfold msgs. rewrite app_assoc. eexists _, e. reflexivity. }
  pose proof (receive_frame c (next_seq s) (s_queue s2) None s2 G) as R.
  assert (R2 : c_reliable c = true -> calm s -> runs (receive c (next_seq s) (s_queue s2) None) s2 (fun x s' => x = (e =? 0, join d) /\ calm s' /\ (e <> 0 -> s_errno s' = e))).
  { intros Hc (K1 & K2). destruct Q as [(Q1 & Q2)|(Q & _)]; [|congruence]. rewrite Q1, A6, K1. cbn [app]. apply receive_calm; congruence. }
  unfold runs in *. destruct (receive c (next_seq s) (s_queue s2) None s2) as [x s'| | | | | |]; try exact R; try exact I.
  destruct R as (R1 & R3 & R4). unfold nl_post. split; [eapply frame_trans; eassumption|]. split; [rewrite R4, Sq; exact A8|]. split.
  - right. exists a', n, e, d. rewrite R3, T. exact E'.
  - intros Hc K. destruct (R2 Hc K) as (X & Y & Z). split; [exact Y|]. exists a', n, e, d. rewrite R3, T. auto.
Qed.

(** ** Tunnels *)

(** Tunnels of ours are on the same sockets as before, or on [x] *)
Definition own_le (x : option N) (l l' : list tun) : Prop :=
  forall t f, In t l' -> t_fd t = Some f -> x = Some f \/ exists t0, In t0 l /\ t_fd t0 = Some f.
Lemma own_refl : forall x l, own_le x l l.
Proof. intros x l t f H E. right. eauto. Qed.
Lemma own_trans : forall x l1 l2 l3, own_le x l1 l2 -> own_le x l2 l3 -> own_le x l1 l3.
Proof. intros x l1 l2 l3 A B t f H E. destruct (B t f H E) as [G|(t0 & H0 & E0)]; [left; exact G | exact (A t0 f H0 E0)]. Qed.
Lemma own_weaken : forall x l l', own_le None l l' -> own_le x l l'.
Proof. intros x l l' A t f H E. destruct (A t f H E) as [G|G]; [discriminate | right; exact G]. Qed.
Lemma own_with_ses : forall id x l, own_le None l (with_ses id x l).
Proof.
  intros id x l t f H E. unfold with_ses in H. apply in_map_iff in H. destruct H as (t0 & <- & H). right. exists t0. split; [exact H|].
  destruct (t_id t0 =? id); exact E.
Qed.
Lemma own_filter : forall g l, own_le None l (filter g l).
Proof. intros g l t f H E. apply filter_In in H. right. exists t. tauto. Qed.
Definition req_fd (r : request) : option N := match r with RTunnel fd _ => Some fd | _ => None end.
Lemma kernel_own : forall r a n fds l e d l', kernel r a n fds l = (e, d, l') -> own_le (req_fd r) l l'.
Proof.
  intros r a n fds l e d l' H. unfold kernel in H. destruct (negb (a =? 0)); [injection H as _ _ <-; apply own_refl|].
  destruct r; cbn [req_fd].
  - injection H as _ _ <-; apply own_refl.
  - destruct (find_tun id l); [injection H as _ _ <-; apply own_refl|]. destruct (negb (is_open fd fds)); [injection H as _ _ <-; apply own_refl|].
    destruct (existsb (on_fd fd) l); injection H as _ _ <-; [apply own_refl|]. intros t f [<-|H] E; [left; exact E | right; eauto].
  - destruct (find_tun id l) as [t|]; [|injection H as _ _ <-; apply own_refl]. destruct (t_ses t); [injection H as _ _ <-; apply own_refl|].
    destruct ((_ =? 0) || _); injection H as _ _ <-; [apply own_refl | apply own_with_ses].
  - destruct (find_tun id l) as [t|]; [|injection H as _ _ <-; apply own_refl]. destruct (t_ses t) as [[? ?]|]; injection H as _ _ <-; apply own_refl.
  - destruct (find_tun id l) as [t|]; [|injection H as _ _ <-; apply own_refl]. destruct (t_ses t) as [[? ?]|]; injection H as _ _ <-; [apply own_with_ses | apply own_refl].
Qed.
Lemma nl_own : forall c r s x s', nl_post c r s x s' -> own_le (req_fd r) (s_tuns s) (s_tuns s').
Proof.
  intros c r s x s' (_ & _ & [->|(a & n & e & d & H)] & _); [apply own_refl | eapply kernel_own; exact H].
Qed.

(** [fastd_l2tp_tunnel_create] in a loop *)
Definition tunnel_post (c : config) (fd : N) (s : st) (o : option N) (s' : st) : Prop :=
  frame s s' /\ own_le (Some fd) (s_tuns s) (s_tuns s') /\
  (c_reliable c = true -> calm s -> calm s' /\
     match o with
     | None => s_tuns s' = s_tuns s
     | Some id => id <> 0 /\ find_tun id (s_tuns s) = None /\ s_tuns s' = mk_tun id (Some fd) None :: s_tuns s
     end).
Lemma create_tunnel_effect : forall c fd fuel s, runs (create_tunnel c fd fuel) s (tunnel_post c fd s).
Proof.
  intros c fd fuel. induction fuel as [|fuel IH]; intros s; [exact I|].
  cbn [create_tunnel]. apply runs_bind. unfold new_conn_id. apply runs_ask. intros a s1 H1. apply runs_ret.
  assert (L : forall s0, frame s s0 -> own_le (Some fd) (s_tuns s) (s_tuns s0) ->
     (c_reliable c = true -> calm s -> calm s0 /\ s_tuns s0 = s_tuns s) -> runs (create_tunnel c fd fuel) s0 (tunnel_post c fd s)).
  { intros s0 F O R. eapply runs_imp; [apply IH|]. cbn beta. intros o s' (F' & O' & R'). split; [eapply frame_trans; eassumption|].
    split; [eapply own_trans; eassumption|]. intros Hc K. destruct (R Hc K) as (K0 & T0). destruct (R' Hc K0) as (K' & P). split; [exact K'|].
    rewrite T0 in P. exact P. }
  destruct H1 as (F1 & A5 & A6 & A7 & A8).
  destruct (a mod 2 ^ 32 =? 0) eqn:Ez.
  { apply L; [exact F1 | rewrite A5; apply own_refl |]. intros Hc (K1 & K2). unfold calm. repeat split; congruence. }
  apply runs_bind. unfold tunnel_create. eapply runs_then; [apply do_nl_effect|]. cbn beta. intros x s2 P. apply runs_ret.
  pose proof (nl_own _ _ _ _ _ P) as O. cbn [req_fd] in O. rewrite A5 in O. destruct P as (F2 & _ & _ & R).
  assert (F : frame s s2) by (eapply frame_trans; eassumption).
  assert (R' : c_reliable c = true -> calm s -> calm s2 /\
    exists a0 n e d, kernel (RTunnel fd (a mod 2 ^ 32)) a0 n (s_fds s1) (s_tuns s) = (e, d, s_tuns s2) /\ x = (e =? 0, join d) /\ (e <> 0 -> s_errno s2 = e)).
  { intros Hc (K1 & K2). rewrite <- A5. apply R; [exact Hc|]. unfold calm. split; congruence. }
  clear R.
  assert (Same : fst x = false -> c_reliable c = true -> calm s -> calm s2 /\ s_tuns s2 = s_tuns s).
  { intros Hx Hc K. destruct (R' Hc K) as (K2 & a0 & n & e & d & E & X & _). split; [exact K2|]. subst x. cbn [fst] in Hx.
    unfold kernel in E. destruct (negb (a0 =? 0)); [congruence|]. destruct (find_tun (a mod 2 ^ 32) (s_tuns s)); [congruence|]. destruct (negb (is_open fd (s_fds s1))); [congruence|].
    destruct (existsb (on_fd fd) (s_tuns s)); [congruence|]. injection E as <- _ _. discriminate. }
  destruct (fst x) eqn:Ex.
  - apply runs_ret. split; [exact F|]. split; [exact O|]. intros Hc K. destruct (R' Hc K) as (K2 & a0 & n & e & d & E & X & _). split; [exact K2|].
    subst x. cbn [fst] in Ex. unfold kernel in E. destruct (negb (a0 =? 0)) eqn:Ea; [injection E as <- _ _; lia|].
    destruct (find_tun (a mod 2 ^ 32) (s_tuns s)) eqn:Ef; [injection E as <- _ _; discriminate|]. destruct (negb (is_open fd (s_fds s1))); [injection E as <- _ _; discriminate|].
    destruct (existsb (on_fd fd) (s_tuns s)); [injection E as <- _ _; discriminate|]. injection E as _ _ <-. split; [lia | split; reflexivity].
  - apply runs_get. destruct (s_errno s2 =? EEXIST).
    + apply L; [exact F | exact O |]. intros Hc K. exact (Same eq_refl Hc K).
    + apply runs_ret. split; [exact F|]. split; [exact O|]. exact (Same eq_refl).
Qed.
Lemma new_tunnel_effect : forall c fd s, runs (new_tunnel c fd) s (tunnel_post c fd s).
Proof. intros c fd s. unfold new_tunnel. apply runs_get. apply create_tunnel_effect. Qed.
