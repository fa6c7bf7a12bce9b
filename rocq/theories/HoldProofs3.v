(** Peers, the end of the configuration and the end of the program *)
From Verif Require Import Base BufferModel HoldModel HoldSpec HoldProofs HoldProofs2.
From Coq Require Import Permutation Lia PeanoNat.

Ltac cc := repeat (rewrite ?cnt_cons, ?cnt_app, ?cnt_nil; cbn [app]).

Lemma cnt_peer p x : cnt (in_peer p) x =
  (one (p_self p) x + cnt (o_list (p_name p)) x + cnt (o_list (option_map fst (p_key p))) x + cnt (o_list (p_ifname p)) x
   + cnt (o_list (p_vec p)) x + cnt (flat_map in_remote (p_remotes p)) x)%nat.
Proof. unfold in_peer. cc. lia. Qed.
Lemma cnt_remote h a x : cnt (in_remote (Remote h a)) x = (cnt (o_list h) x + cnt (match a with AHeap p => [p] | _ => [] end) x)%nat.
Proof. unfold in_remote. cbn [r_host r_addrs]. cc. lia. Qed.
Ltac pc := cc; rewrite ?cnt_peer; cbn [with_key with_name with_ifname with_remotes with_cfg p_self p_name p_key p_ifname p_vec p_remotes option_map fst o_list];
  cc; rewrite ?cnt_remote; cbn [o_list]; cc.

Lemma group_dirs_eq a n d ms cs ch :
  group_dirs (Grp a n d ms cs ch) = map (fun d => (a, fst d)) d ++ flat_map group_dirs ch.
Proof. reflexivity. Qed.
Lemma group_dirs_keep g : forall a d, In (a, d) (group_dirs g) -> In a (gkeep g) /\ In d (gkeep g).
Proof.
  induction g as [s n ds ms cs ch IH] using group_ind'. intros a d H. rewrite group_dirs_eq in H. rewrite gkeep_eq.
  apply in_app_or in H. destruct H as [H|H].
  - apply in_map_iff in H. destruct H as ((d' & t) & E & H). injection E as <- <-. split; [left; reflexivity |].
    right. apply in_or_app. left. unfold in_stack. apply in_map_iff. exists (d', t). split; [reflexivity | exact H].
  - apply in_flat_map in H. destruct H as (c & Hc & H). rewrite Forall_forall in IH.
    destruct (IH c Hc a d H) as (A & B).
    split; right; apply in_or_app; right; apply in_flat_map; exists c; split; assumption.
Qed.
Lemma dirs_keep s a d : In (a, d) (flat_map group_dirs (h_open s)) -> In a (keep s) /\ In d (keep s).
Proof.
  intros H. apply in_flat_map in H. destruct H as (g & Hg & H). apply group_dirs_keep in H. destruct H as (A & B).
  unfold keep. split; apply in_flat_map; exists g; split; assumption.
Qed.

Lemma inv_peer s v m : Inv s -> World m (held (set_peer s v m)) ->
  match v with Some p => peer_in (keep s) p /\ fresh_peer p | None => True end -> Inv (set_peer s v m).
Proof. intros I W P. destruct I. constructor; unfold keep in *; un; assumption. Qed.
Lemma inv_peers s v m : Inv s -> World m (held (set_peers s v m)) -> Forall (peer_in (keep s)) v -> Inv (set_peers s v m).
Proof. intros I W P. destruct I. constructor; unfold keep in *; un; assumption. Qed.

Lemma in_blank p n g d : in_peer (blank p n g d) = p :: o_list n.
Proof. unfold in_peer, blank. cbn. rewrite app_nil_r. reflexivity. Qed.
Lemma blank_ok K p n g d : incl (o_list g ++ o_list d) K -> peer_in K (blank p n g d) /\ fresh_peer (blank p n g d).
Proof.
  intros H. split; [split; [split; cbn; [constructor | congruence] | exact H] | split; [constructor | reflexivity]].
Qed.
Lemma inv_do_peer n s : Inv s -> Inv (do_peer n s).
Proof.
  intros I. unfold do_peer. destruct (h_peer s) eqn:EP; [exact I |].
  destruct (malloc (h_mem s)) as [p m1] eqn:E1. pose proof (w_malloc _ _ _ _ (i_w _ I) E1) as W1.
  destruct (strdup n m1) as [q m2] eqn:E2. pose proof (w_strdup _ _ _ _ _ W1 E2) as W2.
  apply inv_peer; [exact I | |].
  - refine (w_eq _ _ _ W2 _). intros x. unfold held. un. rewrite EP, in_blank. cc. lia.
  - apply blank_ok. cbn [o_list]. rewrite app_nil_r. apply hd_keep.
Qed.
Lemma inv_do_peerfile g d s : Inv s -> Inv (do_peerfile g d s).
Proof.
  intros I. unfold do_peerfile. destruct (h_peer s) eqn:EP; [exact I |].
  destruct (existsb _ _) eqn:EX; [|exact I].
  apply existsb_exists in EX. destruct EX as ((a & b) & Hin & E). cbn in E. apply andb_prop in E. destruct E as (Ea & Eb).
  apply Nat.eqb_eq in Ea, Eb. subst. apply dirs_keep in Hin. destruct Hin as (Ka & Kb).
  destruct (malloc (h_mem s)) as [p m1] eqn:E1. pose proof (w_malloc _ _ _ _ (i_w _ I) E1) as W1.
  destruct (malloc m1) as [q m2] eqn:E2. pose proof (w_malloc _ _ _ _ W1 E2) as W2.
  apply inv_peer; [exact I | |].
  - refine (w_eq _ _ _ W2 _). intros x. unfold held. un. rewrite EP, in_blank. cbn [o_list]. cc. lia.
  - apply blank_ok. cbn. intros x [<-|[<-|[]]]; assumption.
Qed.
Lemma world_peer s p : Inv s -> h_peer s = Some p -> World (h_mem s) (in_peer p ++ held (set_peer s None (h_mem s))).
Proof.
  intros I E. refine (w_eq _ _ _ (i_w _ I) _). intros x. unfold held. un. rewrite E. cc. lia.
Qed.
Lemma world_peer_back s p m : World m (in_peer p ++ held (set_peer s None (h_mem s))) -> World m (held (set_peer s (Some p) m)).
Proof. intros W. refine (w_eq _ _ _ W _). intros x. unfold held. un. cc. lia. Qed.
Lemma inv_key k s : Inv s -> good (do_key k s).
Proof.
  intros I. unfold do_key. destruct (h_peer s) as [p|] eqn:EP; [|exact I].
  pose proof (world_peer _ _ I EP) as W. pose proof (i_p _ I) as IP. rewrite EP in IP. destruct IP as ((PO & PI) & PF).
  assert (W0 : World (h_mem s) (o_list (option_map fst (p_key p)) ++ in_peer (with_key p None) ++ held (set_peer s None (h_mem s)))).
  { refine (w_eq _ _ _ W _). intros x. pc. lia. }
  destruct (w_free _ _ _ W0) as (m1 & -> & W1). cbn [bind].
  destruct (malloc m1) as [o m2] eqn:E2. pose proof (w_malloc _ _ _ _ W1 E2) as W2.
  destruct k as [k|].
  - cbn [good]. apply inv_peer; [exact I | | split; [split; assumption | exact PF]].
    apply world_peer_back. refine (w_eq _ _ _ W2 _). intros x. pc. lia.
  - destruct (w_free1 _ _ _ W2) as (m3 & -> & W3). cbn [bind good].
    apply inv_peer; [exact I | apply world_peer_back; exact W3 | split; [split; assumption | exact PF]].
Qed.
Lemma fresh_ok v l : Forall (fun r => r_addrs r = ANull) l -> Forall (remote_ok v) l.
Proof.
  intros H. refine (Forall_impl _ _ H). intros [h a] E. cbn in E. subst a. destruct h; exact Logic.I.
Qed.
Lemma inv_remote h s : Inv s -> good (do_remote h s).
Proof.
  intros I. unfold do_remote. destruct (h_peer s) as [p|] eqn:EP; [|exact I].
  pose proof (world_peer _ _ I EP) as W. pose proof (i_p _ I) as IP. rewrite EP in IP. destruct IP as ((PO & PI) & (PF & PC)).
  destruct (strdup h (h_mem s)) as [q m1] eqn:E1. pose proof (w_strdup _ _ _ _ _ W E1) as W1.
  assert (W1' : World m1 (o_list (p_vec p) ++ o_list q ++ in_peer (with_remotes p None (p_remotes p)) ++ held (set_peer s None (h_mem s)))).
  { refine (w_eq _ _ _ W1 _). intros x. pc. lia. }
  destruct (w_free _ _ _ W1') as (m2 & -> & W2). cbn [bind].
  destruct (malloc m2) as [v m3] eqn:E3. pose proof (w_malloc _ _ _ _ W2 E3) as W3. cbn [good].
  assert (F : Forall (fun r => r_addrs r = ANull) (p_remotes p ++ [Remote q ANull])).
  { apply Forall_app. split; [exact PF | repeat constructor]. }
  apply inv_peer; [exact I | |].
  - apply world_peer_back. refine (w_eq _ _ _ W3 _). intros x. pc. rewrite flat_map_app. cbn [flat_map]. pc. lia.
  - split; [split; [split; [apply fresh_ok; exact F | cbn; congruence] | exact PI] | split; [exact F | exact PC]].
Qed.
Lemma inv_ifname s : Inv s -> good (do_ifname s).
Proof.
  intros I. unfold do_ifname. destruct (h_peer s) as [p|] eqn:EP; [|exact I].
  pose proof (world_peer _ _ I EP) as W. pose proof (i_p _ I) as IP. rewrite EP in IP. destruct IP as ((PO & PI) & PF).
  assert (W0 : World (h_mem s) (o_list (p_ifname p) ++ in_peer (with_ifname p None) ++ held (set_peer s None (h_mem s)))).
  { refine (w_eq _ _ _ W _). intros x. pc. lia. }
  destruct (w_free _ _ _ W0) as (m1 & -> & W1). cbn [bind].
  destruct (malloc m1) as [o m2] eqn:E2. pose proof (w_malloc _ _ _ _ W1 E2) as W2. cbn [good].
  apply inv_peer; [exact I | | split; [split; assumption | exact PF]].
  apply world_peer_back. refine (w_eq _ _ _ W2 _). intros x. pc. lia.
Qed.

Lemma w_delete i l m O p : nth_error l i = Some p -> peer_ok p -> World m (flat_map in_peer l ++ O) ->
  exists m', delete_peer i l m = Ok (del i l, m') /\ World m' (flat_map in_peer (del i l) ++ O).
Proof.
  intros E PO W. unfold delete_peer. rewrite E.
  assert (W0 : World m (in_peer p ++ flat_map in_peer (del i l) ++ O)).
  { refine (w_eq _ _ _ W _). intros x. cc. rewrite (cnt_nth in_peer i l p x E). lia. }
  destruct (w_peer_free _ _ _ PO W0) as (m1 & -> & W1). cbn [bind]. exists m1. auto.
Qed.
Lemma w_peer_add K same p l m O : peer_in K p -> Forall (peer_in K) l ->
  (p_cfg p = CNew \/ exists o k, p_key p = Some (o, k) /\ find_key k l = None) ->
  World m (in_peer p ++ flat_map in_peer l ++ O) ->
  exists ok l' m', peer_add same p l m = Ok (ok, l', m') /\ World m' (flat_map in_peer l' ++ O) /\ Forall (peer_in K) l'
    /\ ((exists o k, p_key p = Some (o, k) /\ find_key k l = None) -> ok = true).
Proof.
  intros PI F C W. destruct PI as (PO & PK). unfold peer_add.
  destruct (p_key p) as [(o & k)|] eqn:EK.
  2: { destruct (w_peer_free _ _ _ PO W) as (m1 & -> & W1). cbn [bind]. exists false, l, m1.
       split; [reflexivity |]. split; [exact W1 |]. split; [exact F |]. intros (? & ? & E & _). discriminate. }
  destruct (find_key k l) as [i|] eqn:EF.
  2: { exists true, (l ++ [p]), m. split; [reflexivity |]. split.
       - refine (w_eq _ _ _ W _). intros x. rewrite flat_map_app. cbn [flat_map]. cc. lia.
       - split; [apply Forall_app; split; [exact F | constructor; [split; assumption | constructor]] | reflexivity]. }
  assert (NE : (exists o' k', Some (o, k) = Some (o', k') /\ find_key k' l = None) -> False).
  { intros (? & ? & E & E'). injection E as <- <-. congruence. }
  destruct C as [C|C]; [|destruct (NE C)]. rewrite C.
  destruct (find_key_nth _ _ _ EF) as (q & EN). rewrite EN.
  pose proof (Forall_nth _ _ _ _ F EN) as (QO & QK).
  assert (DEL : exists m1, delete_peer i l m = Ok (del i l, m1) /\ World m1 (flat_map in_peer (del i l) ++ in_peer p ++ O)).
  { apply (w_delete i l m _ q EN QO). refine (w_eq _ _ _ W _). intros x. cc. lia. }
  assert (ADD : exists m1, delete_peer i l m = Ok (del i l, m1) /\ World m1 (flat_map in_peer (del i l ++ [p]) ++ O)
                 /\ Forall (peer_in K) (del i l ++ [p])).
  { destruct DEL as (m1 & E1 & W1). exists m1. split; [exact E1 |]. split.
    - refine (w_eq _ _ _ W1 _). intros x. rewrite flat_map_app. cbn [flat_map]. cc. lia.
    - apply Forall_app. split; [apply Forall_del; exact F | constructor; [split; assumption | constructor]]. }
  assert (DUP : exists m1, peer_free p m = Ok m1 /\ World m1 (flat_map in_peer (put i (with_cfg q CDisabled) l) ++ O)
                 /\ Forall (peer_in K) (put i (with_cfg q CDisabled) l)).
  { destruct (w_peer_free _ _ _ PO W) as (m1 & E1 & W1). exists m1. split; [exact E1 |]. split.
    - refine (w_eq _ _ _ W1 _). intros x. cc. rewrite cnt_put, (cnt_nth in_peer i l q x EN).
      change (in_peer (with_cfg q CDisabled)) with (in_peer q). lia.
    - apply Forall_put; [exact F |]. split; [exact QO | exact QK]. }
  destruct (p_cfg q).
  - destruct DUP as (m1 & -> & W1 & F1). cbn [bind]. do 3 eexists. split; [reflexivity |]. repeat split; try assumption. intros X. destruct (NE X).
  - destruct DUP as (m1 & -> & W1 & F1). cbn [bind]. do 3 eexists. split; [reflexivity |]. repeat split; try assumption. intros X. destruct (NE X).
  - destruct same.
    + assert (W0 : World m (o_list (p_name q) ++ (in_peer (with_name p None) ++ o_list (p_name p) ++ in_peer (with_name q None)
                         ++ flat_map in_peer (del i l) ++ O))).
      { refine (w_eq _ _ _ W _). intros x. cc. rewrite (cnt_nth in_peer i l q x EN).
        pc. lia. }
      destruct (w_free _ _ _ W0) as (m1 & -> & W1). cbn [bind].
      assert (PO' : peer_ok (with_name p None)) by exact PO.
      destruct (w_peer_free _ _ _ PO' W1) as (m2 & -> & W2). cbn [bind].
      do 3 eexists. split; [reflexivity |]. split; [| split; [| intros X; destruct (NE X)]].
      * refine (w_eq _ _ _ W2 _). intros x. cc. rewrite cnt_put.
        pc. lia.
      * apply Forall_put; [exact F |]. split; [exact QO | exact QK].
    + destruct ADD as (m1 & -> & W1 & F1). cbn [bind fst snd]. do 3 eexists. split; [reflexivity |]. repeat split; try assumption.
  - destruct ADD as (m1 & -> & W1 & F1). cbn [bind fst snd]. do 3 eexists. split; [reflexivity |]. repeat split; try assumption.
Qed.
Lemma inv_add same s : Inv s -> outcome (do_add same s).
Proof.
  intros I. unfold do_add. destruct (h_peer s) as [p|] eqn:EP; [|exact I].
  pose proof (i_p _ I) as IP. rewrite EP in IP. destruct IP as (PI & (PF & PC)).
  assert (W : World (h_mem s) (in_peer p ++ flat_map in_peer (h_peers s) ++ held (set_peers (set_peer s None (h_mem s)) [] (h_mem s)))).
  { refine (w_eq _ _ _ (i_w _ I) _). intros x. unfold held. un. rewrite EP. cbn [flat_map]. cc. lia. }
  destruct (w_peer_add (keep s) same p (h_peers s) _ _ PI (i_ps _ I) (or_introl PC) W) as (ok & l & m & -> & W1 & F1 & _).
  cbn [bind]. destruct (negb ok && _); [exact Logic.I |]. cbn [outcome].
  destruct I. constructor; unfold keep in *; un; try assumption; try exact Logic.I.
  refine (w_eq _ _ _ W1 _). intros x. unfold held. un. cbn [flat_map]. cc. lia.
Qed.
Lemma inv_drop s : Inv s -> outcome (do_drop s).
Proof.
  intros I. unfold do_drop. destruct (h_peer s) as [p|] eqn:EP; [|exact I].
  pose proof (i_p _ I) as IP. rewrite EP in IP. destruct IP as ((PO & PK) & (PF & PC)).
  destruct (p_src p); [|exact Logic.I].
  destruct (w_peer_free _ _ _ PO (world_peer _ _ I EP)) as (m1 & -> & W1). cbn [bind outcome].
  apply inv_peer; [exact I | exact W1 | exact Logic.I].
Qed.
Lemma world_put s i p q m : nth_error (h_peers s) i = Some p -> in_peer q = in_peer p -> World m (held s) ->
  World m (held (set_peers s (put i q (h_peers s)) m)).
Proof.
  intros E Q W. refine (w_eq _ _ _ W _). intros x. unfold held. un. cc.
  rewrite cnt_put, (cnt_nth in_peer i (h_peers s) p x E), Q. lia.
Qed.
Lemma inv_cfg i c s : Inv s -> Inv (do_cfg i c s).
Proof.
  intros I. unfold do_cfg. destruct (nth_error (h_peers s) i) as [p|] eqn:E; [|exact I].
  apply inv_peers; [exact I | apply (world_put s i p); [exact E | reflexivity | exact (i_w _ I)] |].
  apply Forall_put; [exact (i_ps _ I) |]. exact (Forall_nth _ _ _ _ (i_ps _ I) E).
Qed.
Lemma inv_delete i s : Inv s -> good (do_delete i s).
Proof.
  intros I. unfold do_delete. destruct (nth_error (h_peers s) i) as [p|] eqn:E; [|exact I].
  pose proof (Forall_nth _ _ _ _ (i_ps _ I) E) as (PO & _).
  assert (W : World (h_mem s) (flat_map in_peer (h_peers s) ++ held (set_peers s [] (h_mem s)))).
  { refine (w_eq _ _ _ (i_w _ I) _). intros x. unfold held. un. cbn [flat_map]. cc. lia. }
  destruct (w_delete _ _ _ _ _ E PO W) as (m1 & -> & W1). cbn [bind fst snd good].
  apply inv_peers; [exact I | | apply Forall_del; exact (i_ps _ I)].
  refine (w_eq _ _ _ W1 _). intros x. unfold held. un. cbn [flat_map]. cc. lia.
Qed.
Lemma setup_in v l : Forall (remote_ok v) l -> flat_map in_remote (map (setup_remote v) l) = flat_map in_remote l.
Proof.
  induction 1 as [|[h a] l R _ IH]; [reflexivity |]. cbn [map flat_map]. rewrite IH. f_equal.
  unfold setup_remote. destruct h; [reflexivity |]. destruct v; [|reflexivity].
  unfold remote_ok in R. cbn in R. destruct a; [reflexivity | destruct R | reflexivity].
Qed.
Lemma inv_setup i s : Inv s -> Inv (do_setup i s).
Proof.
  intros I. unfold do_setup. destruct (nth_error (h_peers s) i) as [p|] eqn:E; [|exact I].
  pose proof (Forall_nth _ _ _ _ (i_ps _ I) E) as ((PR & PV) & PK).
  apply inv_peers; [exact I | apply (world_put s i p); [exact E | | exact (i_w _ I)] |].
  - unfold in_peer. cbn [with_remotes p_self p_name p_key p_ifname p_vec p_remotes]. rewrite (setup_in _ _ PR). reflexivity.
  - apply Forall_put; [exact (i_ps _ I) |]. split; [split | exact PK].
    + cbn [with_remotes p_vec p_remotes]. apply Forall_map. refine (Forall_impl _ _ PR).
      intros [h a] R. unfold setup_remote, remote_ok in *. cbn in *. destruct h; [exact R |]. destruct (p_vec p); [reflexivity | exact R].
    + cbn [with_remotes p_vec p_remotes]. intros N. apply PV. intros E0. apply N. rewrite E0. reflexivity.
Qed.
Lemma inv_resolve i j s : Inv s -> good (do_resolve i j s).
Proof.
  intros I. unfold do_resolve. destruct (nth_error (h_peers s) i) as [p|] eqn:E; [|exact I].
  destruct (nth_error (p_remotes p) j) as [[[h|] a]|] eqn:EJ; try exact I.
  pose proof (Forall_nth _ _ _ _ (i_ps _ I) E) as ((PR & PV) & PK).
  pose proof (Forall_nth _ _ _ _ PR EJ) as R. unfold remote_ok in R. cbn in R.
  destruct (p_vec p) as [v|] eqn:EV; [|exfalso; apply PV; [intros E0; rewrite E0 in EJ; destruct j; discriminate | reflexivity]].
  set (q := with_remotes p (Some v) (del j (p_remotes p))).
  set (O := o_list (p_name p) ++ o_list (option_map fst (p_key p)) ++ o_list (p_ifname p) ++ flat_map in_remote (del j (p_remotes p))
     ++ flat_map in_peer (del i (h_peers s)) ++ held (set_peers s [] (h_mem s))).
  assert (W : World (h_mem s) (v :: p_self p :: h :: match a with AHeap p => [p] | _ => [] end ++ O)).
  { refine (w_eq _ _ _ (i_w _ I) _). intros x. unfold held, O. un. cc. rewrite (cnt_nth in_peer i (h_peers s) p x E).
    pc. rewrite EV, (cnt_nth in_remote j (p_remotes p) _ x EJ).
    unfold held. un. cbn [flat_map]. pc. lia. }
  rewrite (w_use _ _ _ W). cbn [bind].
  assert (A : exists m', free_addrs a (h_mem s) = Ok m' /\ World m' (v :: p_self p :: h :: O)).
  { destruct a as [|r|r]; cbn [free_addrs].
    - exists (h_mem s). split; [reflexivity |]. exact W.
    - apply w_free1. refine (w_eq _ _ _ W _). intros x. cc. lia.
    - destruct R. }
  destruct A as (m1 & -> & W1). cbn [bind].
  destruct (malloc m1) as [r m2] eqn:E2. pose proof (w_malloc _ _ _ _ W1 E2) as W2. cbn [good].
  apply inv_peers; [exact I | |].
  - refine (w_eq _ _ _ W2 _). intros x. unfold held, O. un. cc. rewrite cnt_put.
    pc. rewrite cnt_put.
    unfold held. un. cbn [flat_map]. pc. lia.
  - apply Forall_put; [exact (i_ps _ I) |]. split; [split | exact PK]; cbn [with_remotes p_vec p_remotes].
    + apply Forall_put; [exact PR | exact Logic.I].
    + congruence.
Qed.
Lemma inv_dynamic k may s : Inv s -> good (do_dynamic k may s).
Proof.
  intros I. unfold do_dynamic. destruct (h_vgroup s) as [g|] eqn:EV; [|exact I].
  destruct (find_key k (h_peers s)) eqn:EF; [exact I |].
  destruct (malloc (h_mem s)) as [p m1] eqn:E1. pose proof (w_malloc _ _ _ _ (i_w _ I) E1) as W1.
  destruct (malloc m1) as [o m2] eqn:E2. pose proof (w_malloc _ _ _ _ W1 E2) as W2.
  set (pe := Peer p None (Some (o, k)) None None [] (Some g) None CDynamic).
  assert (PI : peer_in (keep s) pe).
  { split; [split; cbn; [constructor | congruence] |]. pose proof (i_v _ I) as V. rewrite EV in V. exact V. }
  destruct may.
  - assert (W : World m2 (in_peer pe ++ flat_map in_peer (h_peers s) ++ held (set_peers s [] (h_mem s)))).
    { refine (w_eq _ _ _ W2 _). intros x. unfold held. un. cbn [flat_map]. change (in_peer pe) with [p; o]. cc. lia. }
    assert (X : exists o k, p_key pe = Some (o, k) /\ find_key k (h_peers s) = None) by (exists o, k; auto).
    destruct (w_peer_add (keep s) false pe _ _ _ PI (i_ps _ I) (or_intror X) W) as (ok & l & m & -> & W3 & F & OK).
    cbn [bind]. rewrite (OK X). cbn [good]. apply inv_peers; [exact I | | exact F].
    refine (w_eq _ _ _ W3 _). intros x. unfold held. un. cbn [flat_map]. cc. lia.
  - assert (W : World m2 (in_peer pe ++ held s)) by (refine (w_eq _ _ _ W2 _); intros x; change (in_peer pe) with [p; o]; cc; lia).
    destruct (w_peer_free _ _ _ (proj1 PI) W) as (m3 & -> & W3). cbn [bind good]. exact (inv_mem _ _ I W3).
Qed.

(** The methods *)
Lemma w_collect_names ns : forall l m O l' m', World m (in_stack l ++ O) -> collect_names ns l m = (l', m') ->
  World m' (in_stack l' ++ O).
Proof.
  induction ns as [|(p & n) ns IH]; intros l m O l' m' W E; cbn [collect_names] in E; [injection E as <- <-; exact W |].
  destruct (contains l n); [exact (IH _ _ _ _ _ W E) |].
  destruct (malloc m) as [q m1] eqn:E1. apply (IH ((q, n) :: l) m1 O l' m'); [|exact E].
  exact (w_malloc _ _ _ _ W E1).
Qed.
Lemma w_collect g : forall l m O l' m', World m (in_stack l ++ O) -> collect g l m = (l', m') ->
  World m' (in_stack l' ++ O).
Proof.
  induction g as [s n ds ms cs ch IH] using group_ind'. intros l m O l' m' W E. cbn [collect] in E.
  destruct (collect_names ms l m) as [l1 m1] eqn:E1. pose proof (w_collect_names _ _ _ _ _ _ W E1) as W1.
  clear W E1. revert l1 m1 W1 E. induction IH as [|c r Hc _ IHr]; intros l1 m1 W1 E.
  - injection E as <- <-. exact W1.
  - destruct (collect c l1 m1) as [l2 m2] eqn:E2. exact (IHr _ _ (Hc _ _ _ _ _ W1 E2) E).
Qed.
Lemma w_create l : forall m O es m', World m O -> create l m = (es, m') ->
  World m' (flat_map (fun e => o_list (snd e)) es ++ O) /\ map fst es = in_stack l.
Proof.
  induction l as [|(p & n) l IH]; intros m O es m' W E; cbn [create] in E; [injection E as <- <-; split; [exact W | reflexivity] |].
  destruct (strdup (negb (n =? 0)%N) m) as [o m1] eqn:E1. pose proof (w_strdup _ _ _ _ _ W E1) as W1.
  destruct (create l m1) as [es1 m2] eqn:E2. injection E as <- <-.
  destruct (IH _ _ _ _ W1 E2) as (W2 & M). split.
  - refine (w_eq _ _ _ W2 _). intros x. cbn [flat_map snd]. cc. lia.
  - cbn [map fst in_stack]. f_equal. exact M.
Qed.
Lemma inv_configure sup s : Inv s -> Inv (do_configure sup s).
Proof.
  intros I. unfold do_configure. destruct (h_marr s) eqn:EM; [exact I |].
  destruct (h_open s) as [|root [|]] eqn:EO; try exact I.
  destruct (i_n _ I EM) as (N1 & N2 & N3 & N4).
  destruct (strdup sup (h_mem s)) as [gs m1] eqn:E1. pose proof (w_strdup _ _ _ _ _ (i_w _ I) E1) as W1.
  destruct (malloc m1) as [pr m2] eqn:E2. pose proof (w_malloc _ _ _ _ W1 E2) as W2.
  destruct (collect root [] m2) as [l m3] eqn:E3. pose proof (w_collect _ [] _ _ _ _ W2 E3) as W3.
  destruct (malloc m3) as [arr m4] eqn:E4. pose proof (w_malloc _ _ _ _ W3 E4) as W4.
  destruct (create l m4) as [es m5] eqn:E5. destruct (w_create _ _ _ _ _ W4 E5) as (W5 & M).
  destruct I. constructor; unfold keep in *; un; try assumption.
  - refine (w_eq _ _ _ W5 _). intros x. unfold held. un. rewrite EM, N1, N2, N3, N4. cbn [flat_map in_stack map o_list]. cc. lia.
  - rewrite M. apply incl_refl.
  - discriminate.
Qed.

Definition may_end (e : event) : Prop := match e with EAdd _ | EDrop => True | _ => False end.
Lemma inv_step_good e s : Inv s -> ~ may_end e -> good (step e s).
Proof.
  intros I N. destruct e; cbn [step good];
  [ exact (inv_str _ _ I) | exact (inv_cmd _ _ I) | exact (inv_gcmd _ _ I) | exact (inv_bind _ _ _ _ _ _ I) | exact (inv_push _ I)
  | exact (inv_pop _ I) | exact (inv_method _ _ I) | exact (inv_dir _ _ I) | exact (inv_file _ _ _ I) | exact (inv_string _ I)
  | exact (inv_token _ I) | exact (inv_endfile _ I) | exact (inv_do_peer _ _ I) | exact (inv_do_peerfile _ _ _ I)
  | exact (inv_key _ _ I) | exact (inv_remote _ _ I) | exact (inv_ifname _ I) | destruct (N Logic.I) | destruct (N Logic.I)
  | exact (inv_configure _ _ I) | exact (inv_cfg _ _ _ I) | exact (inv_delete _ _ I) | exact (inv_setup _ _ I)
  | exact (inv_resolve _ _ _ I) | exact (inv_dynamic _ _ _ I) ].
Qed.
Lemma inv_step e s : Inv s -> outcome (step e s).
Proof.
  intros I. destruct e; try solve [apply good_outcome, inv_step_good; [exact I | intros []]].
  - exact (inv_add _ _ I).
  - exact (inv_drop _ I).
Qed.
Lemma inv_run es : forall s, Inv s -> outcome (run es s).
Proof.
  induction es as [|e es IH]; intros s I; [exact I |]. cbn [run].
  pose proof (inv_step e s I) as H. destruct (step e s) as [s1| | |]; cbn in *; try exact H. exact (IH _ H).
Qed.
Lemma inv_start : Inv start.
Proof.
  constructor.
  - intros x. vm_compute. destruct x as [|[|[|x]]]; reflexivity.
  - constructor.
  - exact Logic.I.
  - intros x [].
  - intros x [].
  - intros x [].
  - intros _. repeat split.
  - discriminate.
Qed.
