(** Every event keeps the accounting *)
From Verif Require Import Base BufferModel HoldModel HoldSpec HoldProofs.
From Coq Require Import Permutation Lia PeanoNat.

Fixpoint gkeep (g : group) : list nat :=
  match g with
  | Grp self _ dirs _ _ ch =>
      self :: in_stack dirs ++ (fix go (l : list group) := match l with [] => [] | c :: r => gkeep c ++ go r end) ch
  end.
Lemma gkeep_eq s n d ms cs ch : gkeep (Grp s n d ms cs ch) = s :: in_stack d ++ flat_map gkeep ch.
Proof. reflexivity. Qed.
Definition keep (s : hold) : list nat := flat_map gkeep (h_open s).
Definition peer_in (K : list nat) (p : peer) : Prop :=
  peer_ok p /\ incl (o_list (p_group p) ++ o_list (p_src p)) K.
Definition fresh_peer (p : peer) : Prop := Forall (fun r => r_addrs r = ANull) (p_remotes p) /\ p_cfg p = CNew.
Record Inv (s : hold) : Prop := {
  i_w : World (h_mem s) (held s);
  i_ps : Forall (peer_in (keep s)) (h_peers s);
  i_p : match h_peer s with Some p => peer_in (keep s) p /\ fresh_peer p | None => True end;
  i_v : incl (o_list (h_vgroup s)) (keep s);
  i_d : incl (o_list (h_def4 s) ++ o_list (h_def6 s)) (flat_map in_bind (h_binds s));
  i_m : incl (map fst (h_methods s)) (in_stack (h_mlist s));
  i_n : h_marr s = None -> h_mlist s = [] /\ h_methods s = [] /\ h_groups s = None /\ h_proto s = None;
  i_o : h_open s <> [] }.

Ltac un := cbn [h_mem h_files h_open h_peer h_peers h_strs h_cmds h_vgroup h_binds h_def4 h_def6 h_groups h_proto h_mlist h_marr h_methods
  set_mem set_files set_open set_peer set_peers set_strs set_cmds set_binds set_config] in *.
(** [held] with some component taken out *)
Ltac hw H := refine (w_eq _ _ _ H _); intros ?x; unfold held; un; cnts; try lia.
Definition outcome (r : res hold) : Prop := match r with Ok s => Inv s | Fatal => True | _ => False end.
Definition good (r : res hold) : Prop := match r with Ok s => Inv s | _ => False end.
Lemma good_outcome r : good r -> outcome r.
Proof. destruct r; cbn; auto; contradiction. Qed.

Lemma inv_str k s : Inv s -> good (do_str k s).
Proof.
  intros I. unfold do_str. destruct (nth_error (h_strs s) k) as [old|] eqn:E; [|exact I].
  assert (W : World (h_mem s) (o_list old ++ held (set_strs s (del k (h_strs s)) (h_mem s)))).
  { refine (w_eq _ _ _ (i_w _ I) _). intros x. unfold held. un. rewrite !cnt_app.
    rewrite (cnt_nth o_list k (h_strs s) old x E). lia. }
  destruct (w_free _ _ _ W) as (m1 & -> & W1). cbn [bind].
  destruct (malloc m1) as [p m2] eqn:E2. pose proof (w_malloc _ _ _ _ W1 E2) as W2.
  cbn. destruct I. constructor; un; try assumption.
  refine (w_eq _ _ _ W2 _). intros x. unfold held. un. rewrite !cnt_cons, !cnt_app, cnt_put.
  cbn [o_list]. rewrite cnt_cons, cnt_nil. lia.
Qed.

Lemma hd_keep s : incl (o_list (option_map g_self (hd_error (h_open s)))) (keep s).
Proof.
  unfold keep. destruct (h_open s) as [|[a n d ms cs ch] r]; cbn; intros x Hx; [exact Hx |].
  destruct Hx as [<-|[]]. left. reflexivity.
Qed.
Lemma inv_cmd k s : Inv s -> good (do_cmd k s).
Proof.
  intros I. unfold do_cmd. destruct (nth_error (h_cmds s) k) as [c|] eqn:E; [|exact I].
  assert (W : World (h_mem s) (in_cmd c ++ held (set_cmds s (del k (h_cmds s)) None (h_mem s)))).
  { refine (w_eq _ _ _ (i_w _ I) _). intros x. unfold held. un. rewrite !cnt_app.
    rewrite (cnt_nth in_cmd k (h_cmds s) c x E). lia. }
  destruct (w_cmd_set _ _ _ W) as (c' & m1 & -> & W1). cbn [bind fst snd].
  cbn [good]. destruct I. constructor; un; try assumption.
  - refine (w_eq _ _ _ W1 _). intros x. unfold held. un. rewrite !cnt_app, cnt_put. lia.
  - unfold keep. un. destruct (k =? 2)%nat; [apply hd_keep | assumption].
Qed.

(** Groups *)
Lemma inv_open s v m : Inv s -> World m (held (set_open s v m)) -> incl (keep s) (flat_map gkeep v) -> v <> [] ->
  Inv (set_open s v m).
Proof.
  intros I W K N. destruct I. constructor; unfold keep in *; un; try assumption.
  - refine (Forall_impl _ _ i_ps0). intros p (A & B). split; [exact A |]. intros x Hx. apply K, B, Hx.
  - destruct (h_peer s) as [p|]; [|exact Logic.I]. destruct i_p0 as ((A & B) & C). split; [|exact C].
    split; [exact A |]. intros x Hx. apply K, B, Hx.
  - intros x Hx. apply K, i_v0, Hx.
Qed.
Lemma world_head s g rest : Inv s -> h_open s = g :: rest ->
  World (h_mem s) (in_group g ++ held (set_open s rest (h_mem s))).
Proof.
  intros I E. refine (w_eq _ _ _ (i_w _ I) _). intros x. unfold held. un. rewrite E. cbn [flat_map].
  rewrite !cnt_app. lia.
Qed.
Lemma world_head_back s g rest m : World m (in_group g ++ held (set_open s rest (h_mem s))) ->
  World m (held (set_open s (g :: rest) m)).
Proof.
  intros W. refine (w_eq _ _ _ W _). intros x. unfold held. un. cbn [flat_map].
  rewrite !cnt_app. lia.
Qed.
Lemma inv_gcmd k s : Inv s -> good (do_gcmd k s).
Proof.
  intros I. unfold do_gcmd. destruct (h_open s) as [|g rest] eqn:EO; [exact I |].
  destruct g as [a n d ms cs ch]. destruct (nth_error cs k) as [c|] eqn:E; [|exact I].
  pose proof (world_head _ _ _ I EO) as W. rewrite group_in in W. cbn [app] in W.
  rewrite (w_use _ _ _ W). cbn [bind].
  assert (W0 : World (h_mem s) (in_cmd c ++ (in_group (Grp a n d ms (del k cs) ch) ++ held (set_open s rest (h_mem s))))).
  { refine (w_eq _ _ _ W _). intros x. rewrite group_in. rewrite !cnt_app, !cnt_cons, !cnt_app.
    rewrite (cnt_nth in_cmd k cs c x E). lia. }
  destruct (w_cmd_set _ _ _ W0) as (c' & m1 & -> & W1). cbn [bind fst snd good].
  apply inv_open; [exact I | | | discriminate].
  - apply world_head_back. refine (w_eq _ _ _ W1 _). intros x. rewrite !group_in.
    rewrite !cnt_app, !cnt_cons, !cnt_app, cnt_put. lia.
  - unfold keep. rewrite EO. cbn [flat_map]. rewrite !gkeep_eq. apply incl_refl.
Qed.
Lemma inv_bind a b c d e s : Inv s -> Inv (do_bind a b c d e s).
Proof.
  intros I. unfold do_bind.
  destruct (malloc (h_mem s)) as [p m1] eqn:E1. pose proof (w_malloc _ _ _ _ (i_w _ I) E1) as W1.
  destruct (strdup c m1) as [q m2] eqn:E2. pose proof (w_strdup _ _ _ _ _ W1 E2) as W2.
  destruct I. constructor; un; try assumption.
  - refine (w_eq _ _ _ W2 _). intros x. unfold held. un. cbn [flat_map]. change (in_bind (Baddr p q)) with (p :: o_list q).
    repeat (rewrite ?cnt_cons, ?cnt_app, ?cnt_nil; cbn [app]). lia.
  - intros x Hx. apply in_app_or in Hx. cbn [flat_map]. change (in_bind (Baddr p q)) with (p :: o_list q).
    assert (G : x = p \/ In x (o_list (h_def4 s) ++ o_list (h_def6 s))).
    { destruct Hx as [Hx|Hx].
      - destruct (a && _); [left; destruct Hx as [Hx|[]]; congruence | right; apply in_or_app; left; exact Hx].
      - destruct (b && _); [left; destruct Hx as [Hx|[]]; congruence | right; apply in_or_app; right; exact Hx]. }
    destruct G as [-> |G]; [left; reflexivity | right; apply in_or_app; right; apply i_d0, G].
Qed.
Lemma inv_push s : Inv s -> Inv (do_push s).
Proof.
  intros I. unfold do_push.
  destruct (malloc (h_mem s)) as [p m1] eqn:E1. pose proof (w_malloc _ _ _ _ (i_w _ I) E1) as W1.
  destruct (malloc m1) as [q m2] eqn:E2. pose proof (w_malloc _ _ _ _ W1 E2) as W2.
  apply inv_open; [exact I | | | discriminate].
  - refine (w_eq _ _ _ W2 _). intros x. unfold held. un. cbn [flat_map].
    change (in_group (new_group p (Some q))) with [p; q].
    repeat (rewrite ?cnt_cons, ?cnt_app, ?cnt_nil; cbn [app]). lia.
  - unfold keep. cbn [flat_map]. intros x Hx. apply in_or_app. right. exact Hx.
Qed.
Lemma inv_pop s : Inv s -> Inv (do_pop s).
Proof.
  intros I. unfold do_pop. destruct (h_open s) as [|g [|[a n d ms cs ch] rest]] eqn:EO; try exact I.
  apply inv_open; [exact I | | | discriminate].
  - refine (w_eq _ _ _ (i_w _ I) _). intros x. unfold held. un. rewrite EO. cbn [flat_map]. rewrite !group_in.
    cbn [flat_map]. rewrite !cnt_app, !cnt_cons, !cnt_app. lia.
  - unfold keep. rewrite EO. cbn [flat_map]. rewrite !gkeep_eq. cbn [flat_map].
    intros x Hx. repeat (rewrite in_app_iff in * || cbn [In] in * ). tauto.
Qed.
Lemma inv_method n s : Inv s -> good (do_method n s).
Proof.
  intros I. unfold do_method. destruct (h_open s) as [|[a nm d ms cs ch] rest] eqn:EO; [exact I |].
  pose proof (world_head _ _ _ I EO) as W. rewrite group_in in W. cbn [app] in W.
  rewrite (w_use _ _ _ W). cbn [bind]. destruct (contains ms n); [exact I |].
  destruct (malloc (h_mem s)) as [p m1] eqn:E1. pose proof (w_malloc _ _ _ _ W E1) as W1.
  cbn [good]. apply inv_open; [exact I | | | discriminate].
  - apply world_head_back. refine (w_eq _ _ _ W1 _). intros x. rewrite !group_in. unfold in_stack. rewrite map_app.
    cbn [map fst app]. rewrite ?cnt_cons, ?cnt_app, ?cnt_cons, ?cnt_app, ?cnt_cons, ?cnt_nil. lia.
  - unfold keep. rewrite EO. cbn [flat_map]. rewrite !gkeep_eq. apply incl_refl.
Qed.
Lemma inv_mem s m : Inv s -> World m (held s) -> Inv (set_mem s m).
Proof. intros I W. destruct I. constructor; unfold keep in *; un; assumption. Qed.
Lemma inv_dir ok s : Inv s -> good (do_dir ok s).
Proof.
  intros I. unfold do_dir. destruct (h_open s) as [|[a nm d ms cs ch] rest] eqn:EO; [exact I |].
  destruct (malloc (h_mem s)) as [p m1] eqn:E1. pose proof (w_malloc _ _ _ _ (i_w _ I) E1) as W1.
  destruct ok.
  - pose proof (world_head _ _ _ I EO) as W. pose proof (w_malloc _ _ _ _ W E1) as V1.
    destruct (malloc m1) as [q m2] eqn:E2. pose proof (w_malloc _ _ _ _ V1 E2) as V2.
    assert (U : use (Some a) m2 = Ok m2).
    { assert (V : World m2 (a :: (q :: p :: o_list nm ++ in_stack d ++ in_stack ms ++ flat_map in_cmd cs ++ flat_map in_group ch
                                  ++ held (set_open s rest (h_mem s))))).
      { refine (w_eq _ _ _ V2 _). intros x. rewrite group_in. rewrite ?cnt_cons, ?cnt_app, ?cnt_cons, ?cnt_app. lia. }
      exact (w_use _ _ _ V). }
    rewrite U. cbn [bind].
    destruct (malloc m2) as [r m3] eqn:E3. pose proof (w_malloc _ _ _ _ V2 E3) as V3.
    assert (V3' : World m3 (q :: p :: in_group (Grp a nm ((r, 0%N) :: d) ms cs ch) ++ held (set_open s rest (h_mem s)))).
    { refine (w_eq _ _ _ V3 _). intros x. rewrite !group_in. unfold in_stack. cbn [map fst].
      repeat (rewrite ?cnt_cons, ?cnt_app; cbn [app]). lia. }
    destruct (w_free1 _ _ _ V3') as (m4 & -> & V4). cbn [bind].
    destruct (w_free1 _ _ _ V4) as (m5 & -> & V5). cbn [bind good].
    apply inv_open; [exact I | apply world_head_back; exact V5 | | discriminate].
    unfold keep. rewrite EO. cbn [flat_map]. rewrite !gkeep_eq. unfold in_stack. cbn [map fst].
    intros x Hx. repeat (rewrite in_app_iff in * || cbn [In] in * ). tauto.
  - destruct (w_free1 _ _ _ W1) as (m2 & -> & W2). cbn [bind good]. exact (inv_mem _ _ I W2).
Qed.

(** Files *)
Lemma inv_files s v m : Inv s -> World m (held (set_files s v m)) -> Inv (set_files s v m).
Proof. intros I W. destruct I. constructor; unfold keep in *; un; assumption. Qed.
Lemma inv_file a b s : Inv s -> Inv (do_file a b s).
Proof.
  intros I. unfold do_file.
  destruct (malloc (h_mem s)) as [p m1] eqn:E1. pose proof (w_malloc _ _ _ _ (i_w _ I) E1) as W1.
  destruct (malloc m1) as [q m2] eqn:E2. pose proof (w_malloc _ _ _ _ W1 E2) as W2.
  destruct (strdup (a && b) m2) as [f m3] eqn:E3. pose proof (w_strdup _ _ _ _ _ W2 E3) as W3.
  destruct (strdup (negb a || b) m3) as [l m4] eqn:E4. pose proof (w_strdup _ _ _ _ _ W3 E4) as W4.
  destruct (strdup (a && b) m4) as [g m5] eqn:E5. pose proof (w_strdup _ _ _ _ _ W4 E5) as W5.
  apply inv_files; [exact I |]. refine (w_eq _ _ _ W5 _). intros x. unfold held. un. cbn [flat_map].
  match goal with |- context [in_file (?a, ?b) ++ _] => change (in_file (a, b)) with (a ++ b) end.
  change (match l with Some p0 => [p0] | None => [] end) with (o_list l).
  change (match g with Some p0 => [p0] | None => [] end) with (o_list g).
  change (match f with Some p0 => [p0] | None => [] end) with (o_list f).
  repeat (rewrite ?cnt_cons, ?cnt_app, ?cnt_nil; cbn [app]). lia.
Qed.
Lemma inv_string s : Inv s -> good (do_string s).
Proof.
  intros I. unfold do_string. destruct (h_files s) as [|[st ob] rest] eqn:EF; [exact I |].
  destruct (malloc (h_mem s)) as [p m1] eqn:E1. pose proof (w_malloc _ _ _ _ (i_w _ I) E1) as W1.
  destruct (malloc m1) as [q m2] eqn:E2. pose proof (w_malloc _ _ _ _ W1 E2) as W2.
  assert (W2' : World m2 (p :: q :: held s)) by (refine (w_eq _ _ _ W2 _); intros x; rewrite !cnt_cons; lia).
  destruct (w_free1 _ _ _ W2') as (m3 & -> & W3). cbn [bind good].
  apply inv_files; [exact I |]. refine (w_eq _ _ _ W3 _). intros x. unfold held. un. rewrite EF. cbn [flat_map].
  change (in_file (st, ob)) with (st ++ ob). change (in_file (q :: st, ob)) with ((q :: st) ++ ob).
  repeat (rewrite ?cnt_cons, ?cnt_app, ?cnt_nil; cbn [app]). lia.
Qed.
Lemma inv_token s : Inv s -> good (do_token s).
Proof.
  intros I. unfold do_token.
  destruct (malloc (h_mem s)) as [p m1] eqn:E1. pose proof (w_malloc _ _ _ _ (i_w _ I) E1) as W1.
  destruct (w_free1 _ _ _ W1) as (m2 & -> & W2). cbn [bind good]. exact (inv_mem _ _ I W2).
Qed.
Lemma inv_endfile s : Inv s -> good (do_endfile s).
Proof.
  intros I. unfold do_endfile. destruct (h_files s) as [|[st ob] rest] eqn:EF; [exact I |].
  set (sl := map (fun p => (p, 0%N)) st).
  assert (Es : in_stack sl = st) by (unfold in_stack, sl; rewrite map_map; apply map_id).
  assert (W : World (h_mem s) (in_stack sl ++ ob ++ held (set_files s rest (h_mem s)))).
  { rewrite Es. refine (w_eq _ _ _ (i_w _ I) _). intros x. unfold held. un. rewrite EF. cbn [flat_map].
    change (in_file (st, ob)) with (st ++ ob).
    repeat (rewrite ?cnt_cons, ?cnt_app, ?cnt_nil; cbn [app]). lia. }
  destruct (w_stack_free _ _ _ W) as (m1 & -> & W1). cbn [bind].
  destruct (w_free_list _ _ _ W1) as (m2 & -> & W2). cbn [bind good].
  apply inv_files; [exact I | exact W2].
Qed.
