(** Proofs about L2TP offloading: opening and closing sessions *)
From Coq Require Import List NArith Bool Lia ZifyBool ZifyN.
From Verif Require Import L2tpModel L2tpSpec L2tpProofs.
Import ListNotations.
Local Open Scope N_scope.

Lemma upd_same : forall A (f : N -> A) k v, upd f k v k = v.
Proof. intros A f k v. unfold upd. rewrite N.eqb_refl. reflexivity. Qed.
Lemma upd_other : forall A (f : N -> A) k v x, x <> k -> upd f k v x = f x.
Proof. intros A f k v x H. unfold upd. destruct (N.eqb_spec x k); [contradiction | reflexivity]. Qed.

Lemma filter_id : forall A (g : A -> bool) l, (forall x, In x l -> g x = true) -> filter g l = l.
Proof. intros A g l H. induction l as [|x l IH]; [reflexivity|]. cbn. rewrite (H x (or_introl eq_refl)). f_equal. apply IH. intros y Hy. apply H. right; exact Hy. Qed.
Lemma map_id_in : forall A (g : A -> A) l, (forall x, In x l -> g x = x) -> map g l = l.
Proof. intros A g l H. induction l as [|x l IH]; [reflexivity|]. cbn. rewrite (H x (or_introl eq_refl)). f_equal. apply IH. intros y Hy. apply H. right; exact Hy. Qed.
Lemma find_tun_none : forall id l, find_tun id l = None <-> forall t, In t l -> t_id t <> id.
Proof.
  intros id l. unfold find_tun. split.
  - intros H t Ht E. pose proof (find_none _ _ H t Ht) as X. cbn beta in X. lia.
  - intros H. destruct (find _ l) as [t|] eqn:E; [|reflexivity]. apply find_some in E. destruct E as (E1 & E2). specialize (H t E1). lia.
Qed.
Lemma name_used_spec : forall n l, name_used n l = false <-> forall t m x, In t l -> t_ses t = Some (m, x) -> m <> n.
Proof.
  intros n l. unfold name_used. split.
  - intros H t m x Ht Et En. subst m. assert (existsb (fun t => match t_ses t with Some (m, _) => m =? n | None => false end) l = true); [|congruence].
    apply existsb_exists. exists t. split; [exact Ht|]. rewrite Et. apply N.eqb_refl.
  - intros H. destruct (existsb _ l) eqn:E; [|reflexivity]. apply existsb_exists in E. destruct E as (t & Ht & E). destruct (t_ses t) as [[m x]|] eqn:Et; [|discriminate].
    specialize (H t m x Ht Et). lia.
Qed.
Lemma with_ses_none : forall id x l, find_tun id l = None -> with_ses id x l = l.
Proof.
  intros id x l H. apply map_id_in. intros t Ht. pose proof (proj1 (find_tun_none id l) H t Ht). destruct (N.eqb_spec (t_id t) id); [contradiction | reflexivity].
Qed.
Lemma is_open_in : forall fd l, is_open fd l = true <-> In fd (map k_fd l).
Proof.
  intros fd l. unfold is_open. rewrite existsb_exists, in_map_iff. split; intros (k & A & B).
  - exists k. split; [lia | exact A].
  - exists k. split; [exact B | lia].
Qed.

(** ** Sockets *)

Definition fresh_ok (s : st) : Prop :=
  (forall k, In k (s_fds s) -> k_fd k < s_next s) /\ (forall id so, s_heap s id = Some so -> id < s_next s) /\
  (forall t f, In t (s_tuns s) -> t_fd t = Some f -> f < s_next s).

Lemma close_effect : forall fd s, In fd (map k_fd (s_fds s)) ->
  runs (close_fd fd) s (fun _ s' => s' = set_tuns (filter (fun t => negb (on_fd fd t)) (s_tuns s)) (set_fds (filter (fun k => negb (k_fd k =? fd)) (s_fds s)) s)).
Proof.
  intros fd s H. unfold close_fd. apply runs_get. rewrite (proj2 (is_open_in fd (s_fds s)) H). apply runs_put, runs_put'. reflexivity.
Qed.
Lemma socket_close_effect : forall id so s, s_heap s id = Some so -> so_fd so = id -> In id (map k_fd (s_fds s)) ->
  runs (socket_close id) s (fun _ s' => s' = set_heap (upd (s_heap s) id None)
     (set_tuns (filter (fun t => negb (on_fd id t)) (s_tuns s)) (set_fds (filter (fun k => negb (k_fd k =? id)) (s_fds s)) s))).
Proof.
  intros id so s H E O. unfold socket_close. apply runs_get. rewrite H, E. eapply runs_then; [apply close_effect; exact O|].
  cbn beta. intros _ s' ->. apply runs_put'. reflexivity.
Qed.

(** A session being set up: socket [id] is open, nothing else has changed *)
Definition mid (c : config) (p : peer) (parent id : N) (r : N) (s s1 : st) : Prop :=
  id = s_next s /\ s_next s1 = s_next s + 1 /\ s_peers s1 = s_peers s /\
  s_fds s1 = mk_kfd id (Some (fst (p_local p))) (snd (p_local p)) r :: s_fds s /\
  s_heap s1 = upd (s_heap s) id (Some (mk_sock id (Some (fst (p_local p))) (snd (p_local p)) (Offload parent))) /\
  own_le (Some id) (s_tuns s) (s_tuns s1).
Definition none_post (c : config) (s s' : st) : Prop :=
  s_peers s' = s_peers s /\ s_fds s' = s_fds s /\ (forall i, s_heap s' i = s_heap s i) /\ s_next s <= s_next s' /\
  own_le None (s_tuns s) (s_tuns s') /\ (c_reliable c = true -> calm s -> calm s' /\ s_tuns s' = s_tuns s).

Lemma mid_frame : forall c p parent id r s s1 s2, mid c p parent id r s s1 -> frame s1 s2 -> own_le (Some id) (s_tuns s1) (s_tuns s2) -> mid c p parent id r s s2.
Proof.
  intros c p parent id r s s1 s2 (A1 & A2 & A3 & A4 & A5 & A6) (B1 & B2 & B3 & B4) O. unfold mid. repeat split; try congruence. eapply own_trans; eassumption.
Qed.

Lemma filter_gone : forall id s l, fresh_ok s -> id = s_next s -> l = s_tuns s -> filter (fun t => negb (on_fd id t)) l = s_tuns s.
Proof.
  intros id s l (_ & _ & F) -> ->. apply filter_id. intros t Ht. unfold on_fd. destruct (t_fd t) as [f|] eqn:E; [|reflexivity]. specialize (F t f Ht E). lia.
Qed.
Lemma mid_close : forall c p parent id r s s1 conn del, fresh_ok s -> mid c p parent id r s s1 ->
  (c_reliable c = true -> calm s -> calm s1 /\
     (s_tuns s1 = s_tuns s /\ del = false \/ exists x, find_tun conn (s_tuns s) = None /\ s_tuns s1 = mk_tun conn (Some id) x :: s_tuns s)) ->
  runs (free_offload_session c (Some id) conn del) s1 (fun _ s' => none_post c s s').
Proof.
  intros c p parent id r s s1 conn del F Md R. unfold free_offload_session.
  assert (Fin : forall s2, mid c p parent id r s s2 ->
     (c_reliable c = true -> calm s -> calm s2 /\ (s_tuns s2 = s_tuns s \/ exists x, s_tuns s2 = mk_tun conn (Some id) x :: s_tuns s)) ->
     runs (socket_close id) s2 (fun _ s' => none_post c s s')).
  { intros s2 (A1 & A2 & A3 & A4 & A5 & A6) R2. eapply runs_imp.
    - eapply socket_close_effect.
      + rewrite A5. apply upd_same.
      + reflexivity.
      + rewrite A4. left. reflexivity.
    - cbn beta. intros _ s' ->. unfold none_post. cbn [s_peers s_fds s_heap s_next s_tuns set_heap set_tuns set_fds]. split; [exact A3|]. split.
      { rewrite A4. cbn [filter k_fd]. rewrite N.eqb_refl. cbn [negb]. apply filter_id. intros k Hk. pose proof (proj1 F k Hk). lia. }
      split.
      { intros i. rewrite A5. unfold upd. destruct (N.eqb_spec i id) as [->|]; [|reflexivity].
        destruct (s_heap s id) eqn:E; [|reflexivity]. pose proof (proj1 (proj2 F) _ _ E). lia. }
      split; [lia|]. split.
      { intros t f Ht Ef. apply filter_In in Ht. destruct Ht as (Ht & G). unfold on_fd in G. rewrite Ef in G. destruct (A6 t f Ht Ef) as [X|X]; [|right; exact X].
        injection X as <-. lia. }
      intros Hc K. destruct (R2 Hc K) as ((K1 & K2) & T). split; [split; assumption|].
      destruct T as [T|(x & T)]; rewrite T; [apply filter_gone; auto|]. cbn [filter on_fd t_fd]. rewrite N.eqb_refl. cbn [negb]. apply filter_gone; auto. }
  destruct del.
  - apply runs_bind, runs_bind. unfold session_delete. eapply runs_then; [apply do_nl_effect|]. cbn beta. intros x s2 P. apply runs_ret, runs_ret.
    pose proof (nl_own _ _ _ _ _ P) as O. destruct P as (F2 & _ & _ & R2). apply Fin.
    + eapply mid_frame; [exact Md | exact F2 | apply own_weaken; exact O].
    + intros Hc K. destruct (R Hc K) as (K1 & [(_ & X)|(y & Fn & T)]); [discriminate|]. destruct (R2 Hc K1) as (K2 & a & n & e & d & E & _). split; [exact K2|].
      right. rewrite T in E. unfold kernel in E. destruct (negb (a =? 0)); [injection E as _ _ <-; exists y; reflexivity|].
      unfold find_tun in E. cbn [find t_id] in E. rewrite N.eqb_refl in E. cbn [t_ses] in E. destruct y; injection E as _ _ <-; [|exists None; reflexivity].
      exists None. cbn [with_ses map t_id t_fd]. rewrite N.eqb_refl. f_equal. apply (with_ses_none conn None _ Fn).
  - apply runs_bind, runs_ret. apply Fin; [exact Md|]. intros Hc K. destruct (R Hc K) as (K1 & [(T & _)|(y & _ & T)]); (split; [exact K1|]); [left; exact T | right; exists y; exact T].
Qed.

Definition init_post (c : config) (n : N) (p : peer) (parent : N) (s : st) (o : option session) (s' : st) : Prop :=
  match o with
  | None => none_post c s s'
  | Some e =>
      mid c p parent (e_sock e) (p_addr p) s s' /\
      (c_reliable c = true -> calm s -> calm s' /\ e_conn e <> 0 /\ find_tun (e_conn e) (s_tuns s) = None /\ e_name e <> 0 /\
         name_used (e_name e) (s_tuns s) = false /\ (forall x, c_name c n = Some x -> x = 0 \/ e_name e = x) /\ e_mtu e = c_mtu c n /\
         s_tuns s' = mk_tun (e_conn e) (Some (e_sock e)) (Some (e_name e, e_mtu e)) :: s_tuns s)
  end.
Lemma set_mtu_own : forall name mtu l,
  own_le None l (map (fun t => match t_ses t with Some (m, _) => if m =? name then mk_tun (t_id t) (t_fd t) (Some (m, mtu)) else t | None => t end) l).
Proof.
  intros name mtu l t f H E. apply in_map_iff in H. destruct H as (t0 & <- & H). right. exists t0. split; [exact H|].
  destruct (t_ses t0) as [[m x]|]; [destruct (m =? name)|]; exact E.
Qed.
Lemma fresh_same : forall s s', same s s' -> fresh_ok s -> fresh_ok s'.
Proof. intros s s' ((A1 & A2 & A3 & A4) & A5 & _) (B1 & B2 & B3). unfold fresh_ok. rewrite A1, A2, A3, A5. auto. Qed.
Lemma none_same : forall c s s1 s', same s s1 -> none_post c s1 s' -> none_post c s s'.
Proof.
  intros c s s1 s' ((A1 & A2 & A3 & A4) & A5 & A6 & A7 & A8) (B1 & B2 & B3 & B4 & B5 & B6). unfold none_post.
  split; [congruence|]. split; [congruence|]. split; [intros i; rewrite B3, A3; reflexivity|]. split; [lia|]. split; [rewrite <- A5; exact B5|].
  intros Hc (K1 & K2). rewrite <- A5. apply B6; [exact Hc|]. split; congruence.
Qed.

Lemma none_refl : forall c s, none_post c s s.
Proof. intros c s. unfold none_post. split; [reflexivity|]. split; [reflexivity|]. split; [reflexivity|]. split; [lia|]. split; [apply own_refl|]. intros _ K. split; [exact K | reflexivity]. Qed.
Lemma init_effect : forall c n p parent s, fresh_ok s -> p_sock p = Some parent -> s_heap s parent <> None -> p_addr p <> 0 ->
  runs (init_session c n p) s (init_post c n p parent s).
Proof.
  intros c n p parent s F Hs Hp Ha. unfold init_session. rewrite Hs.
  destruct (c_name c n) as [name|] eqn:En.
  2: { apply runs_ret. apply none_refl. }
  apply runs_bind. unfold socket_open_offload. apply runs_get. destruct (s_heap s parent) as [spar|] eqn:Ep; [|contradiction].
  apply runs_ask. intros a0 s1 H1. destruct (negb (a0 =? 0)).
  { apply runs_put, runs_ret. apply runs_bind. apply runs_ret, runs_ret. unfold init_post.
    apply (none_same c s (set_errno a0 s1)); [exact H1|]. apply none_refl. }
  set (id := s_next s1).
  apply runs_bind. unfold open_socket. apply runs_bind. unfold open_fd. apply runs_bind. unfold fresh. apply runs_get, runs_put, runs_ret, runs_put, runs_ret, runs_put, runs_ret, runs_ret.
  fold id. match goal with |- runs _ ?x _ => set (s2 := x) end.
  assert (M2 : mid c p parent id 0 s s2).
  { destruct H1 as ((A1 & A2 & A3 & A4) & A5 & A6 & A7 & A8). unfold mid, s2, id. cbn. repeat split; try congruence. rewrite A5. apply own_refl. }
  assert (T2 : s_tuns s2 = s_tuns s /\ (calm s -> calm s2)).
  { destruct H1 as ((A1 & A2 & A3 & A4) & A5 & A6 & A7 & A8). unfold s2, calm. cbn. split; [exact A5|]. intros (K1 & K2). split; congruence. }
  clearbody s2 id. clear s1 H1.
  assert (Close0 : forall s0 r conn, mid c p parent id r s s0 -> (c_reliable c = true -> calm s -> calm s0 /\ (s_tuns s0 = s_tuns s \/
      exists x, find_tun conn (s_tuns s) = None /\ s_tuns s0 = mk_tun conn (Some id) x :: s_tuns s)) ->
     runs (bind (free_offload_session c (Some id) conn false) (fun _ => ret None)) s0 (init_post c n p parent s)).
  { intros s0 r conn M0 R0. eapply runs_then; [eapply mid_close; [exact F | exact M0 |]|].
    - intros Hc K. destruct (R0 Hc K) as (K0 & [T0|T0]); (split; [exact K0|]); [left; split; [exact T0 | reflexivity] | right; exact T0].
    - cbn beta. intros _ s' P. apply runs_ret. exact P. }
  assert (Close1 : forall s0 r conn, mid c p parent id r s s0 -> (c_reliable c = true -> calm s -> calm s0 /\
      exists x, find_tun conn (s_tuns s) = None /\ s_tuns s0 = mk_tun conn (Some id) x :: s_tuns s) ->
     runs (bind (free_offload_session c (Some id) conn true) (fun _ => ret None)) s0 (init_post c n p parent s)).
  { intros s0 r conn M0 R0. eapply runs_then; [eapply mid_close; [exact F | exact M0 |]|].
    - intros Hc K. destruct (R0 Hc K) as (K0 & T0); (split; [exact K0|]). right; exact T0.
    - cbn beta. intros _ s' P. apply runs_ret. exact P. }
  (* connect *)
  apply runs_bind. unfold connect_socket. apply runs_get. pose proof M2 as (I1 & I2 & I3 & I4 & I5 & I6).
  rewrite I5, upd_same. cbn [so_fd]. replace (p_addr p =? 0) with false by lia. apply runs_ask. intros a3 s3 H3.
  assert (M3 : mid c p parent id 0 s s3).
  { destruct H3 as (F3 & A5 & _). eapply mid_frame; [exact M2 | exact F3 | rewrite A5; apply own_refl]. }
  assert (T3 : s_tuns s3 = s_tuns s /\ (calm s -> calm s3)).
  { destruct H3 as (_ & A5 & A6 & A7 & _). unfold calm. split; [rewrite A5; apply T2|]. intros K. destruct (proj2 T2 K) as (K1 & K2). split; congruence. }
  clear I1 I2 I3 I4 I5 I6 H3. destruct (negb (a3 =? 0)).
  { apply runs_put, runs_ret. cbn [negb]. apply (Close0 _ 0); [exact M3|]. intros Hc K. split; [exact (proj2 T3 K) | left; exact (proj1 T3)]. }
  apply runs_put, runs_ret. cbn [negb]. match goal with |- runs _ ?x _ => set (s4 := x) end.
  assert (M4 : mid c p parent id (p_addr p) s s4).
  { destruct M3 as (I1 & I2 & I3 & I4 & I5 & I6). unfold mid, s4. cbn [s_next s_peers s_fds s_heap s_tuns set_fds]. split; [exact I1|]. split; [exact I2|]. split; [exact I3|].
    split; [|split; assumption]. rewrite I4. cbn [map k_fd k_ip k_port]. rewrite N.eqb_refl. f_equal. apply map_id_in. intros k Hk. pose proof (proj1 F k Hk).
    destruct (N.eqb_spec (k_fd k) id); [lia | reflexivity]. }
  assert (T4 : s_tuns s4 = s_tuns s /\ (calm s -> calm s4)) by exact T3.
  clearbody s4. clear M2 T2 M3 T3 s2 s3.
  (* tunnel *)
  apply runs_get. replace (match s_heap s4 id with Some so => so_fd so | None => 0 end) with id
    by (destruct M4 as (I1 & I2 & I3 & I4 & I5 & I6); rewrite I5, upd_same; reflexivity).
  eapply runs_then; [apply new_tunnel_effect|]. cbn beta. intros o s5 (F5 & O5 & R5).
  pose proof (mid_frame _ _ _ _ _ _ _ _ M4 F5 O5) as M5.
  destruct o as [conn|].
  2: { apply (Close0 _ (p_addr p)); [exact M5|]. intros Hc K. destruct (R5 Hc (proj2 T4 K)) as (K5 & T5). split; [exact K5 | left; rewrite T5; exact (proj1 T4)]. }
  assert (R5' : c_reliable c = true -> calm s -> calm s5 /\ conn <> 0 /\ find_tun conn (s_tuns s) = None /\ s_tuns s5 = mk_tun conn (Some id) None :: s_tuns s).
  { intros Hc K. rewrite <- (proj1 T4). exact (R5 Hc (proj2 T4 K)). }
  clear R5 T4 M4 F5 O5 s4.
  (* session *)
  apply runs_bind. unfold session_create. eapply runs_then; [apply do_nl_effect|]. cbn beta. intros x s6 P6. apply runs_ret.
  pose proof (nl_own _ _ _ _ _ P6) as O6. destruct P6 as (F6 & _ & _ & R6).
  pose proof (mid_frame _ _ _ _ _ _ _ _ M5 F6 (own_weaken _ _ _ O6)) as M6.
  assert (R6' : c_reliable c = true -> calm s -> calm s6 /\ conn <> 0 /\ find_tun conn (s_tuns s) = None /\
     if fst x then exists nm, nm <> 0 /\ name_used nm (s_tuns s) = false /\ (name = 0 \/ nm = name) /\ s_tuns s6 = mk_tun conn (Some id) (Some (nm, default_mtu)) :: s_tuns s
     else s_tuns s6 = mk_tun conn (Some id) None :: s_tuns s).
  { intros Hc K. destruct (R5' Hc K) as (K5 & N5 & Fn & T5). destruct (R6 Hc K5) as (K6 & a & nn & e & d & E & X & _). split; [exact K6|]. split; [exact N5|]. split; [exact Fn|].
    rewrite T5 in E. unfold kernel in E. destruct (negb (a =? 0)) eqn:Ea; [injection E as <- _ E; subst x; cbn [fst]; replace (a =? 0) with false by lia; symmetry; exact E|].
    unfold find_tun in E. cbn [find t_id] in E. rewrite N.eqb_refl in E. cbn [t_ses] in E.
    set (nm := if name =? 0 then nn else name) in E.
    destruct ((nm =? 0) || name_used nm (mk_tun conn (Some id) None :: s_tuns s)) eqn:Eu; [injection E as <- _ E; subst x; cbn [fst]; symmetry; exact E|].
    injection E as <- _ E. subst x. cbn [fst N.eqb]. change (0 =? 0) with true. cbv iota. apply orb_false_iff in Eu. destruct Eu as (Eu1 & Eu2). exists nm.
    split; [lia|]. split; [exact Eu2|]. split; [unfold nm; destruct (N.eqb_spec name 0); [left; assumption | right; reflexivity]|].
    rewrite <- E. cbn [with_ses map t_id t_fd]. rewrite N.eqb_refl. f_equal. apply (with_ses_none conn _ _ Fn). }
  clear R6 R5' M5 F6 O6 s5. destruct (fst x) eqn:Ex; cbn [negb].
  2: { apply (Close0 _ (p_addr p)); [exact M6|]. intros Hc K. destruct (R6' Hc K) as (K6 & _ & Fn & T6). split; [exact K6|]. right. eexists. split; [exact Fn | exact T6]. }
  (* name *)
  apply runs_bind. unfold session_get_ifname. eapply runs_then; [apply do_nl_effect|]. cbn beta. intros y s7 P7.
  pose proof (nl_own _ _ _ _ _ P7) as O7. destruct P7 as (F7 & _ & _ & R7).
  pose proof (mid_frame _ _ _ _ _ _ _ _ M6 F7 (own_weaken _ _ _ O7)) as M7.
  assert (R7' : c_reliable c = true -> calm s -> calm s7 /\ conn <> 0 /\ find_tun conn (s_tuns s) = None /\
     exists nm, nm <> 0 /\ name_used nm (s_tuns s) = false /\ (name = 0 \/ nm = name) /\ s_tuns s7 = mk_tun conn (Some id) (Some (nm, default_mtu)) :: s_tuns s /\
       (fst y = true -> snd y = Some nm)).
  { intros Hc K. destruct (R6' Hc K) as (K6 & N6 & Fn & nm & Q1 & Q2 & Q3 & T6). destruct (R7 Hc K6) as (K7 & a & nn & e & d & E & X & _).
    split; [exact K7|]. split; [exact N6|]. split; [exact Fn|]. exists nm. split; [exact Q1|]. split; [exact Q2|]. split; [exact Q3|].
    rewrite T6 in E. unfold kernel in E. destruct (negb (a =? 0)) eqn:Ea; [injection E as <- _ E; subst y; cbn [fst snd]; split; [symmetry; exact E | lia]|].
    unfold find_tun in E. cbn [find t_id] in E. rewrite N.eqb_refl in E. cbn [t_ses] in E. injection E as _ <- E. split; [symmetry; exact E|]. intros _. subst y. reflexivity. }
  clear R7 R6' M6 F7 O7 s6.
  assert (Get : runs (if negb (fst y) then ret None else ret (match snd y with Some n0 => if n0 =? 0 then None else Some n0 | None => None end)) s7
     (fun f s' => s' = s7 /\ (f = None \/ fst y = true /\ snd y = f))).
  { destruct (negb (fst y)) eqn:Ey; apply runs_ret; (split; [reflexivity|]); [left; reflexivity|]. destruct (fst y); [|discriminate].
    destruct (snd y) as [v|]; [|left; reflexivity]. destruct (v =? 0); [left; reflexivity | right; split; reflexivity]. }
  eapply runs_imp; [exact Get|]. cbn beta. clear Get. intros f s8 (-> & Hf). destruct f as [ifname|].
  2: { apply (Close1 _ (p_addr p)); [exact M7|]. intros Hc K. destruct (R7' Hc K) as (K7 & _ & Fn & nm & _ & _ & _ & T7 & _). split; [exact K7|]. eexists. split; [exact Fn | exact T7]. }
  destruct Hf as [Hf|(Hf1 & Hf2)]; [discriminate|].
  (* MTU *)
  apply runs_bind. unfold set_mtu. apply runs_ask. intros a9 s9 H9.
  assert (M9 : mid c p parent id (p_addr p) s s9).
  { destruct H9 as (F9 & A5 & _). eapply mid_frame; [exact M7 | exact F9 | rewrite A5; apply own_refl]. }
  assert (R9 : c_reliable c = true -> calm s -> calm s9 /\ conn <> 0 /\ find_tun conn (s_tuns s) = None /\ ifname <> 0 /\
     name_used ifname (s_tuns s) = false /\ (name = 0 \/ ifname = name) /\ s_tuns s9 = mk_tun conn (Some id) (Some (ifname, default_mtu)) :: s_tuns s).
  { intros Hc K. destruct (R7' Hc K) as (K7 & N7 & Fn & nm & Q1 & Q2 & Q3 & T7 & Q4). specialize (Q4 Hf1). rewrite Hf2 in Q4. injection Q4 as ->.
    destruct H9 as (_ & A5 & A6 & A7 & _). destruct K7 as (K7 & K8). split; [split; congruence|]. repeat split; try assumption. congruence. }
  clear R7' M7 H9 s7. apply runs_get.
  destruct (negb (a9 =? 0) || negb (name_used ifname (s_tuns s9))).
  - apply runs_ret. cbn [negb]. apply (Close1 _ (p_addr p)); [exact M9|]. intros Hc K. destruct (R9 Hc K) as (K9 & _ & Fn & _ & _ & _ & T9). split; [exact K9|]. eexists. split; [exact Fn | exact T9].
  - apply runs_put, runs_ret. cbn [negb]. apply runs_ret. unfold init_post. cbn [e_sock e_conn e_name e_mtu]. split.
    + destruct M9 as (I1 & I2 & I3 & I4 & I5 & I6). unfold mid. cbn [s_next s_peers s_fds s_heap s_tuns set_tuns]. repeat split; try assumption.
      eapply own_trans; [exact I6 | apply own_weaken, set_mtu_own].
    + intros Hc K. destruct (R9 Hc K) as (K9 & N9 & Fn & Q1 & Q2 & Q3 & T9). split; [exact K9|]. repeat split; try assumption.
      * intros z Hz. rewrite En in Hz. injection Hz as <-. exact Q3.
      * cbn [s_tuns set_tuns]. rewrite T9. cbn [map t_ses t_id t_fd]. rewrite N.eqb_refl. f_equal. apply map_id_in. intros t Ht.
        destruct (t_ses t) as [[m z]|] eqn:Et; [|reflexivity]. pose proof (proj1 (name_used_spec ifname (s_tuns s)) Q2 t m z Ht Et). destruct (N.eqb_spec m ifname); [contradiction | reflexivity].
Qed.

(** [fastd_offload_l2tp_free_session] *)
Definition free_post (c : config) (e : session) (s s' : st) : Prop :=
  s_peers s' = s_peers s /\ s_next s' = s_next s /\ s_heap s' = upd (s_heap s) (e_sock e) None /\
  s_fds s' = filter (fun k => negb (k_fd k =? e_sock e)) (s_fds s) /\
  own_le None (filter (fun t => negb (on_fd (e_sock e) t)) (s_tuns s)) (s_tuns s') /\
  (c_reliable c = true -> calm s -> calm s' /\
    ((forall t, In t (s_tuns s) -> t_id t = e_conn e -> on_fd (e_sock e) t = true) -> s_tuns s' = filter (fun t => negb (on_fd (e_sock e) t)) (s_tuns s))).
Lemma free_effect : forall c e so s, s_heap s (e_sock e) = Some so -> so_fd so = e_sock e -> In (e_sock e) (map k_fd (s_fds s)) ->
  runs (free_session c e) s (fun _ s' => free_post c e s s').
Proof.
  intros c e so s H E O. unfold free_session, free_offload_session.
  apply runs_bind, runs_bind. unfold session_delete. eapply runs_then; [apply do_nl_effect|]. cbn beta. intros x s2 P. apply runs_ret, runs_ret.
  pose proof (nl_own _ _ _ _ _ P) as O2. cbn [req_fd] in O2. destruct P as ((A1 & A2 & A3 & A4) & _ & _ & R2).
  eapply runs_imp; [eapply socket_close_effect; [rewrite A3; exact H | exact E | rewrite A1; exact O]|].
  cbn beta. intros _ s' ->. unfold free_post. cbn [s_peers s_fds s_heap s_next s_tuns set_heap set_tuns set_fds].
  split; [exact A4|]. split; [exact A2|]. split; [rewrite A3; reflexivity|]. split; [rewrite A1; reflexivity|]. split.
  - intros t f Ht Ef. apply filter_In in Ht. destruct Ht as (Ht & G). destruct (O2 t f Ht Ef) as [X|(t0 & H0 & E0)]; [discriminate|]. right. exists t0. split; [|exact E0].
    apply filter_In. split; [exact H0|]. unfold on_fd in *. rewrite E0. rewrite Ef in G. exact G.
  - intros Hc K. destruct (R2 Hc K) as (K2 & a & n & er & d & Ek & _). split; [exact K2|]. intros U.
    assert (W : forall y l, (forall t, In t l -> t_id t = e_conn e -> on_fd (e_sock e) t = true) ->
       filter (fun t => negb (on_fd (e_sock e) t)) (with_ses (e_conn e) y l) = filter (fun t => negb (on_fd (e_sock e) t)) l).
    { intros y l. induction l as [|t l IH]; intros Hl; [reflexivity|]. cbn [with_ses map filter]. specialize (IH (fun t' Ht => Hl t' (or_intror Ht))).
      destruct (N.eqb_spec (t_id t) (e_conn e)) as [Et|Et].
      - pose proof (Hl t (or_introl eq_refl) Et) as X. rewrite X. unfold on_fd at 1. cbn [t_fd]. unfold on_fd in X. destruct (t_fd t); [|discriminate]. rewrite X. exact IH.
      - destruct (negb (on_fd (e_sock e) t)); [f_equal|]; exact IH. }
    unfold kernel in Ek. destruct (negb (a =? 0)); [injection Ek as _ _ <-; reflexivity|].
    destruct (find_tun (e_conn e) (s_tuns s)) as [t|]; [|injection Ek as _ _ <-; reflexivity]. destruct (t_ses t); injection Ek as _ _ <-; [apply W; exact U | reflexivity].
Qed.
