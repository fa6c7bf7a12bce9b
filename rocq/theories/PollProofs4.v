(** Handlers run exactly for objects with input. *)
From Coq Require Import ZArith List Bool Lia.
From Verif Require Import BufferModel PollModel PollSpec.
Import ListNotations.

(** The traces, the latest event first *)
Definition quiet (t : list ev) : Prop := forall a x id e b, t = a ++ x :: EDisp id false e :: b -> is_change x = false.
Definition waiting (t : list ev) : bool := match t with EDisp _ false _ :: _ => true | _ => false end.
Definition ran (t : list ev) : Prop := forall a id e b, t = a ++ EDisp id true e :: b -> exists a', a = a' ++ [EClose id].

Lemma quiet_idle t : quiet t -> idle_ok (rev t).
Proof.
  intros Q t1 id e x t2 H. apply (f_equal (@rev ev)) in H. rewrite rev_involutive, rev_app_distr in H. cbn in H. rewrite <- !app_assoc in H. cbn in H.
  exact (Q _ _ _ _ _ H).
Qed.
Lemma ran_handled t : ran t -> handled (rev t).
Proof.
  intros R t1 id e t2 H. apply (f_equal (@rev ev)) in H. rewrite rev_involutive, rev_app_distr in H. cbn in H. rewrite <- app_assoc in H. cbn in H.
  destruct (R _ _ _ _ H) as [a' A]. apply (f_equal (@rev ev)) in A. rewrite rev_involutive, rev_app_distr in A. cbn in A. exists (rev a'). exact A.
Qed.
Lemma quiet_nil : quiet [].
Proof. intros a x id e b H. destruct a; discriminate. Qed.
Lemma quiet_cons x t : quiet t -> (waiting t = true -> is_change x = false) -> quiet (x :: t).
Proof.
  intros Q W a y id e b H. destruct a as [|z a]; injection H as -> H; [|exact (Q _ _ _ _ _ H)]. apply W. rewrite H. reflexivity.
Qed.
Lemma ran_nil : ran [].
Proof. intros a id e b H. destruct a; discriminate. Qed.
Lemma ran_cons x t : ran t -> match x with EDisp _ true _ => False | _ => True end -> ran (x :: t).
Proof.
  intros R X a id e b H. destruct a as [|z a]; injection H as -> H; [destruct X|]. destruct (R _ _ _ _ H) as [a' ->]. exists (z :: a'). reflexivity.
Qed.
Lemma ran_close id e t : ran t -> ran (EClose id :: EDisp id true e :: t).
Proof.
  intros R a id' e' b H. destruct a as [|z [|y a]]; [discriminate| |].
  - injection H as <- <- <- <-. exists []. reflexivity.
  - injection H as <- <- H. destruct (R _ _ _ _ H) as [a' ->]. exists (EClose id :: EDisp id true e :: a'). reflexivity.
Qed.

Section Both.
Variable register close : pst -> nat -> res pst.
Hypothesis register_trace : forall s p s', register s p = Ok s' -> p_trace s' = p_trace s.
Hypothesis close_trace : forall s p s', close s p = Ok s' -> p_trace s' = p_trace s.
Variable handler : pst -> nat -> list op.

Lemma op_shape s o s' : exec_op register close s o = Ok s' ->
  s' = s \/ exists x, p_trace s' = x :: p_trace s /\ is_change x = true.
Proof.
  destruct o as [p ty fd|p]; cbn.
  - destruct (_ || _)%bool; [intros [= <-]; left; reflexivity|]. intros R. apply register_trace in R. right. rewrite R. eexists. split; reflexivity.
  - destruct (lookup (p_heap s) p) as [o|]; [|intros [= <-]; left; reflexivity]. destruct (close s p) as [s1| | |] eqn:C; try discriminate. cbn. intros [= <-].
    right. cbn. rewrite (close_trace _ _ _ C). eexists. split; reflexivity.
Qed.
Definition fresh (s : pst) : Prop := quiet (p_trace s) /\ waiting (p_trace s) = false.
Lemma op_quiet s o s' : exec_op register close s o = Ok s' -> fresh s -> fresh s'.
Proof.
  intros E [Q W]. destruct (op_shape _ _ _ E) as [->|(x & T & C)]; [split; assumption|]. unfold fresh. rewrite T. split.
  - apply quiet_cons; [exact Q|congruence].
  - destruct x; try discriminate C; reflexivity.
Qed.
Lemma ops_quiet l : forall s s', exec_ops register close s l = Ok s' -> fresh s -> fresh s'.
Proof.
  induction l as [|o l IH]; intros s s' E F; [injection E as <-; exact F|]. cbn in E. destruct (exec_op register close s o) as [s1| | |] eqn:O; try discriminate.
  exact (IH _ _ E (op_quiet _ _ _ O F)).
Qed.
Lemma op_ran s o s' : exec_op register close s o = Ok s' -> ran (p_trace s) -> ran (p_trace s').
Proof.
  intros E R. destruct (op_shape _ _ _ E) as [->|(x & T & C)]; [exact R|]. rewrite T. apply ran_cons; [exact R|]. destruct x; try discriminate C; exact I.
Qed.
Lemma ops_ran l : forall s s', exec_ops register close s l = Ok s' -> ran (p_trace s) -> ran (p_trace s').
Proof.
  induction l as [|o l IH]; intros s s' E F; [injection E as <-; exact F|]. cbn in E. destruct (exec_op register close s o) as [s1| | |] eqn:O; try discriminate.
  exact (IH _ _ E (op_ran _ _ _ O F)).
Qed.

Lemma fd_quiet s p i e s' : handle_fd register close handler s p i e = Ok s' -> quiet (p_trace s) -> quiet (p_trace s').
Proof.
  intros E Q. unfold handle_fd in E. destruct (deref s p) as [o| | |]; try discriminate. cbn in E.
  assert (Q' : quiet (p_trace (say (EDisp (o_id o) i e) s))) by (apply quiet_cons; [exact Q|reflexivity]).
  assert (X : forall s1, (if i then exec_ops register close (say (EDisp (o_id o) i e) s) (handler (say (EDisp (o_id o) i e) s) p)
                          else Ok (say (EDisp (o_id o) i e) s)) = Ok s1 -> quiet (p_trace s1)).
  { intros s1 H. destruct i; [|injection H as <-; exact Q']. exact (proj1 (ops_quiet _ _ _ H (conj Q' eq_refl))). }
  destruct (o_type o); try discriminate; try exact (X _ E);
    (destruct (if i then _ else _) as [s1| | |] eqn:H in E; try discriminate; cbn in E; destruct e; [discriminate|injection E as <-; exact (X _ H)]).
Qed.
Lemma fd_ran s p i e s' : closing handler -> handle_fd register close handler s p i e = Ok s' -> ran (p_trace s) -> ran (p_trace s').
Proof.
  intros CL E R. unfold handle_fd in E. destruct (deref s p) as [o| | |] eqn:D; try discriminate. cbn in E.
  assert (X : forall s1, (if i then exec_ops register close (say (EDisp (o_id o) i e) s) (handler (say (EDisp (o_id o) i e) s) p)
                          else Ok (say (EDisp (o_id o) i e) s)) = Ok s1 -> ran (p_trace s1)).
  { intros s1 H. destruct i; [|injection H as <-; apply ran_cons; [exact R|exact I]].
    destruct (CL (say (EDisp (o_id o) true e) s) p) as [l L]. rewrite L in H. cbn in H. unfold deref in D. destruct (lookup (p_heap s) p) as [o'|]; [|discriminate].
    injection D as ->. destruct (close (say (EDisp (o_id o) true e) s) p) as [s2| | |] eqn:C; try discriminate. cbn in H.
    refine (ops_ran _ _ _ H _). cbn. rewrite (close_trace _ _ _ C). cbn. apply ran_close. exact R. }
  destruct (o_type o); try discriminate; try exact (X _ E);
    (destruct (if i then _ else _) as [s1| | |] eqn:H in E; try discriminate; cbn in E; destruct e; [discriminate|injection E as <-; exact (X _ H)]).
Qed.
End Both.

Lemma poll_register_trace s p s' : poll_register s p = Ok s' -> p_trace s' = p_trace s.
Proof. unfold poll_register. destruct (deref s p) as [o| | |]; try discriminate. cbn. destruct (o_fd o <? 0)%Z; [discriminate|]. intros [= <-]. reflexivity. Qed.
Lemma poll_close_trace s p s' : poll_close s p = Ok s' -> p_trace s' = p_trace s.
Proof. unfold poll_close. destruct (deref s p) as [o| | |]; try discriminate. cbn. destruct (_ || _)%bool; [discriminate|]. intros [= <-]. reflexivity. Qed.
Lemma epoll_register_trace s p s' : epoll_register s p = Ok s' -> p_trace s' = p_trace s.
Proof.
  unfold epoll_register. destruct (deref s p) as [o| | |]; try discriminate. cbn. destruct (o_fd o <? 0)%Z; [discriminate|].
  destruct (existsb _ _); [discriminate|]. intros [= <-]. reflexivity.
Qed.
Lemma epoll_close_trace s p s' : epoll_close s p = Ok s' -> p_trace s' = p_trace s.
Proof. unfold epoll_close. destruct (deref s p) as [o| | |]; try discriminate. cbn. destruct (existsb _ _); [|discriminate]. intros [= <-]. reflexivity. Qed.

(** * Rounds *)

Lemma poll_loop_keeps handler (P : list ev -> Prop) :
  (forall s p i e s', handle_fd poll_register poll_close handler s p i e = Ok s' -> P (p_trace s) -> P (p_trace s')) ->
  forall fuel i ret s s', poll_loop handler fuel i ret s = Ok s' -> P (p_trace s) -> P (p_trace s').
Proof.
  intros H. induction fuel as [|fuel IH]; intros i ret s s' E K; [discriminate|]. cbn in E. destruct (_ && _)%bool; [|injection E as <-; exact K].
  destruct (nth_error (p_pollfds s) i) as [[[fd inp] err]|]; [|discriminate]. destruct (fd <? 0)%Z; [discriminate|].
  destruct (nth_error (p_fds s) (Z.to_nat fd)) as [[p|]|]; try discriminate.
  destruct (handle_fd _ _ _ s p inp err) as [s1| | |] eqn:F; try discriminate. exact (IH _ _ _ _ E (H _ _ _ _ _ F K)).
Qed.
Local Arguments poll_loop : simpl never.
Lemma poll_handle_keeps handler (P : list ev -> Prop) :
  (forall s p i e s', handle_fd poll_register poll_close handler s p i e = Ok s' -> P (p_trace s) -> P (p_trace s')) ->
  (forall l t, P t -> P (EPoll l :: t)) ->
  forall sel a s s', poll_handle handler sel a s = Ok s' -> P (p_trace s) -> p_trace s' = p_trace s \/ exists t, P t /\ p_trace s' = EEnd :: t.
Proof.
  intros H HP sel a s s' E K. unfold poll_handle in E.
  assert (T : exists s1, p_trace s1 = p_trace s /\ (match p_pollfds s with [] => do l <- build s (p_fds s); Ok (set_pollfds l s) | _ => Ok s end = Ok s1)).
  { destruct (p_pollfds s); [destruct (build s (p_fds s)) as [l| | |]; try discriminate; eexists; split; [|reflexivity]; reflexivity|eexists; split; [|reflexivity]; reflexivity]. }
  destruct T as (s1 & T & B). rewrite B in E. cbn in E. destruct a as [| |f]; [injection E as <-; left; exact T|discriminate|].
  match type of E with context [say (EPoll ?l) ?s2] =>
    assert (K1 : P (p_trace (say (EPoll l) s2)));
      [cbn; apply HP; replace (p_trace s2) with (p_trace s); [exact K|]; destruct (_ && _)%bool; symmetry; exact T|]; revert E K1; generalize (say (EPoll l) s2); intros s3 E K1
  end.
  destruct (Nat.eqb _ 0) eqn:Z.
  - cbn in E. injection E as <-. right. exists (p_trace s3). split; [exact K1|reflexivity].
  - destruct (poll_loop _ _ _ _ _) as [s4| | |] eqn:L; try discriminate. cbn in E. injection E as <-. right. exists (p_trace s4).
    split; [exact (poll_loop_keeps handler P H _ _ _ _ _ L K1)|reflexivity].
Qed.
Theorem poll_idle handler s : poll_run handler (Ok s) -> idle_ok (rev (p_trace s)).
Proof.
  intros R. apply quiet_idle. assert (F : fresh s); [|exact (proj1 F)]. remember (Ok s) as r eqn:E. revert s E.
  induction R as [|s0 r R IH ST]; intros s E; [injection E as <-; split; [exact quiet_nil|reflexivity]|]. specialize (IH s0 eq_refl). subst r.
  inversion ST as [sel a H|l H].
  - destruct (poll_handle_keeps handler quiet (fun s p i e s' => fd_quiet _ _ poll_register_trace poll_close_trace handler s p i e s')
      (fun l t Q => quiet_cons (EPoll l) t Q (fun _ => eq_refl)) sel a s0 s H (proj1 IH)) as [T|(t & Q & T)].
    + unfold fresh. rewrite T. exact IH.
    + unfold fresh. rewrite T. split; [apply quiet_cons; [exact Q|reflexivity]|reflexivity].
  - exact (ops_quiet _ _ poll_register_trace poll_close_trace l _ _ H IH).
Qed.
Theorem poll_handled handler s : closing handler -> poll_run handler (Ok s) -> handled (rev (p_trace s)).
Proof.
  intros CL R. apply ran_handled. remember (Ok s) as r eqn:E. revert s E.
  induction R as [|s0 r R IH ST]; intros s E; [injection E as <-; exact ran_nil|]. specialize (IH s0 eq_refl). subst r.
  inversion ST as [sel a H|l H].
  - destruct (poll_handle_keeps handler ran (fun s p i e s' => fd_ran _ _ poll_register_trace poll_close_trace handler s p i e s' CL)
      (fun l t Q => ran_cons (EPoll l) t Q I) sel a s0 s H IH) as [T|(t & Q & T)]; rewrite T; [exact IH|apply ran_cons; [exact Q|exact I]].
  - exact (ops_ran _ _ poll_register_trace poll_close_trace l _ _ H IH).
Qed.

Lemma epoll_loop_keeps handler (P : list ev -> Prop) :
  (forall s p i e s', handle_fd epoll_register epoll_close handler s p i e = Ok s' -> P (p_trace s) -> P (p_trace s')) ->
  forall l s s', epoll_loop handler l s = Ok s' -> P (p_trace s) -> P (p_trace s').
Proof.
  intros H. induction l as [|e l IH]; intros s s' E K; [injection E as <-; exact K|]. cbn in E.
  destruct (handle_fd _ _ _ s _ _ _) as [s1| | |] eqn:F; try discriminate. exact (IH _ _ E (H _ _ _ _ _ F K)).
Qed.
Lemma epoll_handle_keeps handler (P : list ev -> Prop) :
  (forall s p i e s', handle_fd epoll_register epoll_close handler s p i e = Ok s' -> P (p_trace s) -> P (p_trace s')) ->
  (forall l t, P t -> P (EPoll l :: t)) ->
  forall a s s', epoll_handle handler a s = Ok s' -> P (p_trace s) -> p_trace s' = p_trace s \/ exists t, P t /\ p_trace s' = EEnd :: t.
Proof.
  intros H HP a s s' E K. destruct a as [| |l]; [injection E as <-; left; reflexivity|discriminate|]. cbn in E.
  destruct (epoll_loop _ _ _) as [s1| | |] eqn:L; try discriminate. injection E as <-. right. exists (p_trace s1). split; [|reflexivity].
  refine (epoll_loop_keeps handler P H _ _ _ L _). apply HP. exact K.
Qed.
Theorem epoll_idle handler s : epoll_run handler (Ok s) -> idle_ok (rev (p_trace s)).
Proof.
  intros R. apply quiet_idle. assert (F : fresh s); [|exact (proj1 F)]. remember (Ok s) as r eqn:E. revert s E.
  induction R as [|s0 r R IH ST]; intros s E; [injection E as <-; split; [exact quiet_nil|reflexivity]|]. specialize (IH s0 eq_refl). subst r.
  assert (X : forall a, epoll_handle handler a s0 = Ok s -> fresh s).
  { intros a H. destruct (epoll_handle_keeps handler quiet (fun s p i e s' => fd_quiet _ _ epoll_register_trace epoll_close_trace handler s p i e s')
      (fun l t Q => quiet_cons (EPoll l) t Q (fun _ => eq_refl)) a s0 s H (proj1 IH)) as [T|(t & Q & T)]; unfold fresh; rewrite T; [exact IH|].
    split; [apply quiet_cons; [exact Q|reflexivity]|reflexivity]. }
  inversion ST as [l C H|a C H|l H].
  - exact (X (EAReady l) H).
  - exact (X _ H).
  - exact (ops_quiet _ _ epoll_register_trace epoll_close_trace l _ _ H IH).
Qed.
Theorem epoll_handled handler s : closing handler -> epoll_run handler (Ok s) -> handled (rev (p_trace s)).
Proof.
  intros CL R. apply ran_handled. remember (Ok s) as r eqn:E. revert s E.
  induction R as [|s0 r R IH ST]; intros s E; [injection E as <-; exact ran_nil|]. specialize (IH s0 eq_refl). subst r.
  assert (X : forall a, epoll_handle handler a s0 = Ok s -> ran (p_trace s)).
  { intros a H. destruct (epoll_handle_keeps handler ran (fun s p i e s' => fd_ran _ _ epoll_register_trace epoll_close_trace handler s p i e s' CL)
      (fun l t Q => ran_cons (EPoll l) t Q I) a s0 s H IH) as [T|(t & Q & T)]; rewrite T; [exact IH|apply ran_cons; [exact Q|exact I]]. }
  inversion ST as [l C H|a C H|l H].
  - exact (X (EAReady l) H).
  - exact (X _ H).
  - exact (ops_ran _ _ epoll_register_trace epoll_close_trace l _ _ H IH).
Qed.
