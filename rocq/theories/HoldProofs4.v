(** The end of the program, and the statements *)
From Verif Require Import Base BufferModel HoldModel HoldSpec HoldProofs HoldProofs2 HoldProofs3.
From Coq Require Import Permutation Lia PeanoNat.

Lemma w_binds l : forall m O, World m (flat_map in_bind l ++ O) -> exists m', free_binds l m = Ok m' /\ World m' O.
Proof.
  induction l as [|[b d] r IH]; intros m O W; cbn [free_binds b_self b_dev]; [exists m; auto |].
  cbn [flat_map] in W. change (in_bind (Baddr b d)) with (b :: o_list d) in W. cbn [app] in W.
  rewrite (w_use _ _ _ W). cbn [bind].
  assert (W0 : World m (o_list d ++ b :: flat_map in_bind r ++ O)) by (refine (w_eq _ _ _ W _); intros x; cc; lia).
  destruct (w_free _ _ _ W0) as (m1 & -> & W1). cbn [bind].
  destruct (w_free1 _ _ _ W1) as (m2 & -> & W2). cbn [bind]. exact (IH _ _ W2).
Qed.
Lemma w_entries arr l : forall m O, World m (arr :: flat_map (fun e => o_list (snd e)) l ++ O) ->
  exists m', destroy_entries (Some arr) l m = Ok m' /\ World m' (arr :: O).
Proof.
  induction l as [|(n & o) l IH]; intros m O W; cbn [destroy_entries]; rewrite (w_use _ _ _ W); [exists m; auto |].
  cbn [bind]. cbn [flat_map snd] in W.
  assert (W0 : World m (o_list o ++ arr :: flat_map (fun e : nat * option nat => o_list (snd e)) l ++ O))
    by (refine (w_eq _ _ _ W _); intros x; cc; lia).
  destruct (w_free _ _ _ W0) as (m1 & -> & W1). cbn [bind]. exact (IH _ _ W1).
Qed.
Lemma del_last {A} (l : list A) : l <> [] -> length (del (length l - 1) l) = (length l - 1)%nat.
Proof.
  intros H. unfold del. rewrite app_length, firstn_length, skipn_length. destruct l; [congruence | cbn [length]; lia].
Qed.
Lemma w_delete_peers f : forall l m O, length l = f -> Forall peer_ok l -> World m (flat_map in_peer l ++ O) ->
  exists m', delete_peers f l m = Ok m' /\ World m' O.
Proof.
  induction f as [|f IH]; intros l m O L F W.
  - destruct l; [|discriminate]. exists m. auto.
  - destruct l as [|q l]; [discriminate |]. cbn [delete_peers].
    set (i := (length (q :: l) - 1)%nat).
    destruct (nth_error (q :: l) i) as [p|] eqn:E; [|apply nth_error_None in E; cbn [length] in *; lia].
    destruct (w_delete i (q :: l) m O p E (Forall_nth _ _ _ _ F E) W) as (m1 & -> & W1). cbn [bind fst snd].
    apply IH; [|apply Forall_del; exact F | exact W1].
    unfold i. rewrite del_last by discriminate. lia.
Qed.
Lemma strs_split (l : list (option nat)) : l = firstn 3 l ++ firstn 2 (skipn 3 l) ++ skipn 5 l.
Proof. destruct l as [|a [|b [|c [|d [|e l]]]]]; reflexivity. Qed.
Lemma finish_ok s : Inv s -> at_end s -> exists m, finish s = Ok m /\ World m [].
Proof.
  intros I (EM & EO & EF & EP). unfold finish.
  destruct (h_marr s) as [arr|] eqn:EA; [clear EM | congruence].
  destruct (h_open s) as [|root [|]] eqn:EOp; try discriminate. clear EO.
  set (O := flat_map in_bind (h_binds s) ++ in_group root
     ++ arr :: flat_map (fun e => o_list (snd e)) (h_methods s)
     ++ in_stack (h_mlist s) ++ flat_map in_cmd (h_cmds s) ++ flat_map o_list (firstn 3 (h_strs s)) ++ o_list (h_groups s)
     ++ flat_map o_list (firstn 2 (skipn 3 (h_strs s))) ++ o_list (h_proto s) ++ flat_map o_list (skipn 5 (h_strs s)) ++ []).
  assert (W : World (h_mem s) (flat_map in_peer (h_peers s) ++ O)).
  { refine (w_eq _ _ _ (i_w _ I) _). intros x. unfold held, O. un. rewrite EA, EF, EP, EOp. cbn [flat_map o_list].
    rewrite (strs_split (h_strs s)) at 1. rewrite !flat_map_app. cc. lia. }
  assert (F : Forall peer_ok (h_peers s)) by (refine (Forall_impl _ _ (i_ps _ I)); intros p (A & _); exact A).
  destruct (w_delete_peers _ _ _ _ eq_refl F W) as (m0 & -> & W0). cbn [bind].
  unfold release, O in *. un. rewrite EOp, EA.
  destruct (w_binds _ _ _ W0) as (m1 & -> & W1). cbn [bind].
  destruct (w_free_group _ _ _ W1) as (m2 & -> & W2). cbn [bind].
  destruct (w_entries _ _ _ _ W2) as (m3 & -> & W3). cbn [bind].
  destruct (w_free1 _ _ _ W3) as (m4 & -> & W4). cbn [bind].
  destruct (w_stack_free _ _ _ W4) as (m5 & -> & W5). cbn [bind].
  destruct (w_cmds_unset _ _ _ W5) as (m6 & -> & W6). cbn [bind].
  destruct (w_free_opts _ _ _ W6) as (m7 & -> & W7). cbn [bind].
  destruct (w_free _ _ _ W7) as (m8 & -> & W8). cbn [bind].
  destruct (w_free_opts _ _ _ W8) as (m9 & -> & W9). cbn [bind].
  destruct (w_free _ _ _ W9) as (m10 & -> & W10). cbn [bind].
  exact (w_free_opts _ _ _ W10).
Qed.

Lemma cnt_nodup l : (forall x, cnt l x <= 1)%nat -> NoDup l.
Proof.
  induction l as [|p l IH]; intros H; constructor.
  - intros Hin. apply cnt_in in Hin. specialize (H p). rewrite cnt_cons, one_self in H. lia.
  - apply IH. intros x. specialize (H x). rewrite cnt_cons in H. lia.
Qed.
Lemma world_live m O p : World m O -> (live m p <-> In p O).
Proof.
  intros W. specialize (W p). unfold live. rewrite !cnt_in. destruct (Nat.ltb_spec p (m_next m)); split; intros H'; lia.
Qed.
Lemma world_nodup m O : World m O -> NoDup O.
Proof. intros W. apply cnt_nodup. intros x. specialize (W x). destruct (x <? m_next m)%nat; lia. Qed.
Lemma world_end m : World m [] -> Permutation (m_freed m) (seq 0 (m_next m)).
Proof.
  intros W. apply NoDup_Permutation.
  - apply cnt_nodup. intros x. specialize (W x). rewrite cnt_nil in W. destruct (x <? m_next m)%nat; lia.
  - apply seq_NoDup.
  - intros x. rewrite in_seq, cnt_in. specialize (W x). rewrite cnt_nil in W. destruct (Nat.ltb_spec x (m_next m)); lia.
Qed.

Lemma reach_inv s : reachable s -> Inv s.
Proof. intros (es & E). pose proof (inv_run es start inv_start) as H. rewrite E in H. exact H. Qed.

Theorem safe_lemma es : match run es start with Ok _ | Fatal => True | _ => False end.
Proof. pose proof (inv_run es start inv_start) as H. destruct (run es start); auto. Qed.
Theorem fatal_lemma s e : reachable s -> step e s = Fatal ->
  exists p, h_peer s = Some p /\ p_src p = None /\ may_end e.
Proof.
  intros R E. pose proof (reach_inv s R) as I.
  destruct e; try (match type of E with step ?e s = _ =>
     assert (G : good (step e s)) by solve [apply inv_step_good; [exact I | intros []]]; rewrite E in G; destruct G end).
  - cbn [step] in E. unfold do_add in E. destruct (h_peer s) as [p|] eqn:EP; [|discriminate]. exists p.
    split; [reflexivity |]. split; [|exact Logic.I].
    pose proof (i_p _ I) as IP. rewrite EP in IP. destruct IP as (PI & (PF & PC)).
    assert (W : World (h_mem s) (in_peer p ++ flat_map in_peer (h_peers s) ++ held (set_peers (set_peer s None (h_mem s)) [] (h_mem s)))).
    { refine (w_eq _ _ _ (i_w _ I) _). intros x. unfold held. un. rewrite EP. cbn [flat_map]. cc. lia. }
    destruct (w_peer_add (keep s) same p (h_peers s) _ _ PI (i_ps _ I) (or_introl PC) W) as (ok & l & m & E1 & _).
    rewrite E1 in E. cbn [bind] in E. destruct (p_src p); [|reflexivity]. rewrite andb_false_r in E. discriminate.
  - cbn [step] in E. unfold do_drop in E. destruct (h_peer s) as [p|] eqn:EP; [|discriminate]. exists p.
    split; [reflexivity |]. split; [|exact Logic.I]. destruct (p_src p); [|reflexivity].
    pose proof (i_p _ I) as IP. rewrite EP in IP. destruct IP as ((PO & _) & _).
    destruct (w_peer_free _ _ _ PO (world_peer _ _ I EP)) as (m1 & E1 & _). rewrite E1 in E. discriminate.
Qed.
Theorem account_lemma s : reachable s -> NoDup (held s) /\ forall p, live (h_mem s) p <-> In p (held s).
Proof.
  intros R. pose proof (i_w _ (reach_inv _ R)) as W. split; [exact (world_nodup _ _ W) |]. intros p. exact (world_live _ _ _ W).
Qed.
Theorem end_lemma s : reachable s -> at_end s ->
  exists m, finish s = Ok m /\ Permutation (m_freed m) (seq 0 (m_next m)).
Proof.
  intros R A. destruct (finish_ok s (reach_inv _ R) A) as (m & E & W). exists m. split; [exact E | exact (world_end _ W)].
Qed.

Lemma keep_group g : incl (gkeep g) (in_group g).
Proof.
  induction g as [s n ds ms cs ch IH] using group_ind'. rewrite gkeep_eq, group_in. intros x [->|Hx]; [left; reflexivity |].
  right. apply in_app_or in Hx. destruct Hx as [Hx|Hx].
  - apply in_or_app. right. apply in_or_app. left. exact Hx.
  - do 4 (apply in_or_app; right). apply in_flat_map in Hx. destruct Hx as (c & Hc & Hx).
    rewrite Forall_forall in IH. apply in_flat_map. exists c. split; [exact Hc | exact (IH c Hc x Hx)].
Qed.
Lemma keep_held s : incl (keep s) (held s).
Proof.
  intros x Hx. unfold held. apply in_or_app. right. apply in_or_app. left. unfold keep in Hx.
  apply in_flat_map in Hx. destruct Hx as (g & Hg & Hx). apply in_flat_map. exists g. split; [exact Hg | exact (keep_group _ _ Hx)].
Qed.
Lemma peer_refs_held K p : peer_in K p -> incl (peer_refs p) (K ++ in_peer p).
Proof.
  intros ((PR & PV) & PK) x Hx. unfold peer_refs in Hx. rewrite app_assoc in Hx. apply in_app_or in Hx. apply in_or_app.
  destruct Hx as [Hx|Hx]; [left; exact (PK _ Hx) | right].
  apply in_flat_map in Hx. destruct Hx as (r & Hr & Hx). rewrite Forall_forall in PR. specialize (PR r Hr).
  unfold remote_ok in PR. destruct (r_addrs r) as [|q|v]; [destruct Hx | destruct Hx |]. destruct Hx as [<-|[]].
  destruct (r_host r); [destruct PR |]. unfold in_peer. rewrite PR. right. do 3 (apply in_or_app; right). left. reflexivity.
Qed.
Theorem refs_lemma s : reachable s -> forall p, In p (refs s) -> live (h_mem s) p.
Proof.
  intros R p Hp. pose proof (reach_inv _ R) as I. apply (world_live _ _ _ (i_w _ I)).
  unfold refs in Hp. repeat (apply in_app_or in Hp; destruct Hp as [Hp|Hp]).
  - pose proof (i_p _ I) as IP. destruct (h_peer s) as [q|] eqn:EP; [|destruct Hp]. destruct IP as (PI & _).
    pose proof (peer_refs_held _ _ PI _ Hp) as H. apply in_app_or in H. destruct H as [H|H]; [exact (keep_held _ _ H) |].
    unfold held. rewrite EP. do 2 (apply in_or_app; right). apply in_or_app. left. exact H.
  - apply in_flat_map in Hp. destruct Hp as (q & Hq & Hp). pose proof (i_ps _ I) as F. rewrite Forall_forall in F.
    pose proof (peer_refs_held _ _ (F q Hq) _ Hp) as H. apply in_app_or in H. destruct H as [H|H]; [exact (keep_held _ _ H) |].
    unfold held. do 3 (apply in_or_app; right). apply in_or_app. left. apply in_flat_map. exists q. split; assumption.
  - apply keep_held. exact (i_v _ I _ Hp).
  - unfold held. do 6 (apply in_or_app; right). apply in_or_app. left. apply (i_d _ I). apply in_or_app. left. exact Hp.
  - unfold held. do 6 (apply in_or_app; right). apply in_or_app. left. apply (i_d _ I). apply in_or_app. right. exact Hp.
  - unfold held. do 9 (apply in_or_app; right). apply in_or_app. left. exact (i_m _ I _ Hp).
Qed.
