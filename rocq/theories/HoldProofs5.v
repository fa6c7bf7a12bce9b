(** Reading the file of a peer again *)
From Verif Require Import Base BufferModel HoldModel HoldSpec HoldProofs HoldProofs2 HoldProofs3 HoldProofs4.
From Coq Require Import Permutation Lia PeanoNat.

(** What is read from the file of a peer *)
Definition during (s s1 : hold) : Prop :=
  exists f m v, s1 = set_peer (set_files s (f :: h_files s) m) v m /\
    (h_peer s = None -> match v with Some p => p_name p <> None /\ p_src p <> None | None => True end).
Lemma during_step s s1 s2 e : h_peer s = None -> in_file_of_peer e -> during s s1 -> step e s1 = Ok s2 -> during s s2.
Proof.
  intros EP P (f & m & v & -> & V) E. specialize (V EP).
  destruct e; try destruct P; cbn [step] in E.
  - unfold do_string in E. cbn [h_files set_peer set_files h_mem] in E. destruct f as [st ob].
    destruct (malloc m) as [q m1]. destruct (malloc m1) as [q2 m2].
    destruct (mfree (Some q) m2) as [m3| | |]; try discriminate. cbn [bind] in E. injection E as <-.
    exists (q2 :: st, ob), m3, v. split; [reflexivity | intros _; exact V].
  - unfold do_token in E. cbn [set_peer set_files h_mem] in E. destruct (malloc m) as [q m1].
    destruct (mfree (Some q) m1) as [m2| | |]; try discriminate. cbn [bind] in E. injection E as <-.
    exists f, m2, v. split; [reflexivity | intros _; exact V].
  - unfold do_key in E. cbn [h_peer set_peer set_files h_mem] in E. destruct v as [p|].
    + destruct (mfree _ m) as [m1| | |]; try discriminate. cbn [bind] in E. destruct (malloc m1) as [o m2]. destruct k as [k|].
      * injection E as <-. exists f, m2, (Some (with_key p (Some (o, k)))). split; [reflexivity | intros _; exact V].
      * destruct (mfree (Some o) m2) as [m3| | |]; try discriminate. cbn [bind] in E. injection E as <-.
        exists f, m3, (Some (with_key p None)). split; [reflexivity | intros _; exact V].
    + injection E as <-. exists f, m, None. split; [reflexivity | intros _; exact Logic.I].
  - unfold do_remote in E. cbn [h_peer set_peer set_files h_mem] in E. destruct v as [p|].
    + destruct (strdup host m) as [h m1]. destruct (mfree (p_vec p) m1) as [m2| | |]; try discriminate. cbn [bind] in E.
      destruct (malloc m2) as [w m3]. injection E as <-.
      exists f, m3, (Some (with_remotes p (Some w) (p_remotes p ++ [Remote h ANull]))). split; [reflexivity | intros _; exact V].
    + injection E as <-. exists f, m, None. split; [reflexivity | intros _; exact Logic.I].
  - unfold do_ifname in E. cbn [h_peer set_peer set_files h_mem] in E. destruct v as [p|].
    + destruct (mfree (p_ifname p) m) as [m2| | |]; try discriminate. cbn [bind] in E.
      destruct (malloc m2) as [w m3]. injection E as <-. exists f, m3, (Some (with_ifname p (Some w))).
      split; [reflexivity | intros _; exact V].
    + injection E as <-. exists f, m, None. split; [reflexivity | intros _; exact Logic.I].
Qed.
Lemma during_run s es : forall s1 s2, h_peer s = None -> Forall in_file_of_peer es -> during s s1 -> run es s1 = Ok s2 -> during s s2.
Proof.
  induction es as [|e es IH]; intros s1 s2 EP F D E; [injection E as <-; exact D |].
  inversion F as [|? ? Fe Fs]; subst. cbn [run] in E. destruct (step e s1) as [s3| | |] eqn:E3; try discriminate.
  exact (IH _ _ EP Fs (during_step _ _ _ _ EP Fe D E3) E).
Qed.
Lemma run_app a : forall b s s', run (a ++ b) s = Ok s' -> exists s1, run a s = Ok s1 /\ run b s1 = Ok s'.
Proof.
  induction a as [|e a IH]; intros b s s' E; [exists s; split; [reflexivity | exact E] |].
  cbn [app run] in *. destruct (step e s) as [s1| | |]; try discriminate. cbn [bind] in *. exact (IH _ _ _ E).
Qed.
(** After the file is read *)
Lemma file_read g d found es s s1 : h_peer s = None -> Forall in_file_of_peer es ->
  run (EPeerFile g d :: EFile true found :: es ++ [EEndFile]) s = Ok s1 ->
  exists m v, s1 = set_peer (set_files s (h_files s) m) v m /\ match v with Some p => p_name p <> None /\ p_src p <> None | None => True end.
Proof.
  intros EP F E. cbn [run step bind] in E.
  assert (P : exists m v, do_peerfile g d s = set_peer (set_files s (h_files s) m) v m /\
                match v with Some p => p_name p <> None /\ p_src p <> None | None => True end).
  { unfold do_peerfile. rewrite EP. destruct (existsb _ _).
    - destruct (malloc (h_mem s)) as [p m1]. destruct (malloc m1) as [q m2]. exists m2. eexists. split; [reflexivity |].
      cbn. split; congruence.
    - exists (h_mem s), None. split; [| exact Logic.I]. destruct s. cbn in *. rewrite EP. reflexivity. }
  destruct P as (m & v & EPf & V). rewrite EPf in E.
  assert (D : during s (do_file true found (set_peer (set_files s (h_files s) m) v m))).
  { unfold do_file. cbn [h_mem set_peer set_files h_files].
    destruct (malloc m) as [a1 m1]. destruct (malloc m1) as [a2 m2]. destruct (strdup _ m2) as [a3 m3]. destruct (strdup _ m3) as [a4 m4].
    destruct (strdup _ m4) as [a5 m5].
    match goal with |- during s (set_files _ (?f :: _) _) => exists f, m5, v end. split; [reflexivity | intros _; exact V]. }
  apply run_app in E. destruct E as (s2 & E2 & E).
  destruct (during_run _ _ _ _ EP F D E2) as (f & m2 & v2 & -> & V2). specialize (V2 EP).
  cbn [run step] in E. unfold do_endfile in E. cbn [h_files set_peer set_files h_mem] in E. destruct f as [st ob].
  destruct (stack_free _ m2) as [m3| | |]; try discriminate. cbn [bind] in E.
  destruct (free_list ob m3) as [m4| | |]; try discriminate. cbn [bind] in E. injection E as <-.
  exists m4, v2. split; [reflexivity | exact V2].
Qed.
Theorem dropped_lemma g d found es s s' : h_peer s = None -> Forall in_file_of_peer es ->
  run (EPeerFile g d :: EFile true found :: es ++ [EEndFile; EDrop]) s = Ok s' -> held s' = held s.
Proof.
  intros EP F E.
  replace (EPeerFile g d :: EFile true found :: es ++ [EEndFile; EDrop]) with
    ((EPeerFile g d :: EFile true found :: es ++ [EEndFile]) ++ [EDrop]) in E
    by (cbn [app]; rewrite <- app_assoc; reflexivity).
  apply run_app in E. destruct E as (s1 & E1 & E).
  destruct (file_read _ _ _ _ _ _ EP F E1) as (m & v & -> & V). cbn [run step] in E. unfold do_drop in E.
  cbn [h_peer set_peer set_files h_mem] in E. destruct v as [p|].
  - destruct V as (_ & V). destruct (p_src p); [|congruence].
    destruct (peer_free p m) as [m1| | |]; try discriminate. cbn [bind] in E. injection E as <-.
    unfold held. cbn. rewrite EP. reflexivity.
  - injection E as <-. unfold held. cbn. rewrite EP. reflexivity.
Qed.
Theorem unchanged_lemma g d found es s s1 s' p o k i q :
  h_peer s = None -> Forall in_file_of_peer es ->
  run (EPeerFile g d :: EFile true found :: es ++ [EEndFile]) s = Ok s1 ->
  h_peer s1 = Some p -> p_key p = Some (o, k) -> find_key k (h_peers s) = Some i -> nth_error (h_peers s) i = Some q ->
  p_cfg q = CStatic -> p_name q <> None -> p_cfg p = CNew ->
  step (EAdd true) s1 = Ok s' ->
  length (held s') = length (held s) /\ length (h_peers s') = length (h_peers s).
Proof.
  intros EP F E1 E2 EK EF EN EC NN PC E.
  destruct (file_read _ _ _ _ _ _ EP F E1) as (m & v & -> & V). cbn [h_peer set_peer] in E2. subst v. destruct V as (V1 & V2).
  cbn [step] in E. unfold do_add in E. cbn [h_peer h_peers h_mem set_peer set_files] in E.
  unfold peer_add in E. rewrite EK, EF, EN, PC, EC in E.
  destruct (mfree (p_name q) m) as [m1| | |]; try discriminate. cbn [bind] in E.
  destruct (peer_free (with_name p None) m1) as [m2| | |]; try discriminate. cbn [bind negb andb] in E. injection E as <-.
  unfold held. cbn [h_files h_open h_peer h_peers h_strs h_cmds h_binds h_groups h_proto h_mlist h_marr h_methods set_peers set_peer set_files].
  rewrite EP, !app_length.
  assert (L : length (flat_map in_peer (put i (with_cfg (with_name q (p_name p)) CNew) (h_peers s))) = length (flat_map in_peer (h_peers s))
              /\ length (put i (with_cfg (with_name q (p_name p)) CNew) (h_peers s)) = length (h_peers s)).
  { rewrite (nth_split _ _ _ EN) at 2 4. unfold put. rewrite !flat_map_app, !app_length. cbn [flat_map length]. rewrite !app_length.
    split; [|lia]. unfold in_peer at 2 5. cbn [with_cfg with_name p_self p_name p_key p_ifname p_vec p_remotes length].
    rewrite !app_length. destruct (p_name p); [|congruence]. destruct (p_name q); [|congruence]. cbn [o_list length]. lia. }
  destruct L as (L1 & L2). rewrite L1, L2. split; reflexivity.
Qed.
Lemma run_app_ok a : forall b s s1 s', run a s = Ok s1 -> run b s1 = Ok s' -> run (a ++ b) s = Ok s'.
Proof.
  induction a as [|e a IH]; intros b s s1 s' E1 E2; cbn [app run] in *; [injection E1 as ->; exact E2 |].
  destruct (step e s) as [s2| | |]; try discriminate. cbn [bind] in *. exact (IH _ _ _ _ E1 E2).
Qed.
Theorem unchanged_lemma' g d found es s s1 s' p o k i q :
  reachable s -> h_peer s = None -> Forall in_file_of_peer es ->
  run (EPeerFile g d :: EFile true found :: es ++ [EEndFile]) s = Ok s1 ->
  h_peer s1 = Some p -> p_key p = Some (o, k) -> find_key k (h_peers s) = Some i -> nth_error (h_peers s) i = Some q ->
  p_cfg q = CStatic -> p_name q <> None ->
  step (EAdd true) s1 = Ok s' ->
  length (held s') = length (held s) /\ length (h_peers s') = length (h_peers s).
Proof.
  intros (es0 & R) EP F E1 E2 EK EF EN EC NN E.
  assert (R1 : reachable s1) by (eexists; exact (run_app_ok _ _ _ _ _ R E1)).
  pose proof (i_p _ (reach_inv _ R1)) as IP. rewrite E2 in IP. destruct IP as (_ & (_ & PC)).
  exact (unchanged_lemma g d found es s s1 s' p o k i q EP F E1 E2 EK EF EN EC NN PC E).
Qed.
