(** The theorems about command lines. *)
From Verif Require Import Base BufferModel MethodModel AddrModel LexModel LexSpec HexSpec ConfigModel ConfigSpec ConfigProofs ConfigProofs2 ConfigProofs3
  ConfigProofs5 ConfigProofs6 ConfigProofs8 ConfigProofs9 ConfigProofs10 ConfigProofs12 OptionsModel OptionsSpec OptionsProofs OptionsProofs2 OptionsProofs3.
From Verif Require HandshakeProofs2 NameModel.
From Coq Require Import String.
Local Open Scope N_scope.

Lemma effects_map es : effects (map OE es) = es.
Proof. unfold effects, all_of. induction es as [|e es IH]; [reflexivity|]. cbn. rewrite IH. reflexivity. Qed.

Section Main.
Context (E : env) (B : obuild) (cwd : bytes).

Lemma option_scoped u n ws oes : option_means E B cwd u n ws oes -> (0 < n)%nat -> scoped n (effects oes).
Proof.
  intros M P. destruct M; cbn; try (repeat split; cbn; lia); try exact Logic.I.
  - rewrite effects_map. exact (means_scoped _ _ _ _ _ _ _ H2 P).
  - change (effects (OStdin :: map OE es)) with (effects (map OE es)). rewrite effects_map. exact (means_scoped _ _ _ _ _ _ _ H2 P).
Qed.
Lemma line_scoped u n args oes : line_means E B cwd u n args oes -> (0 < n)%nat -> scoped n (effects oes).
Proof.
  induction 1 as [|u n ws x tl y OM M IH]; intros P; [exact Logic.I|]. rewrite effects_app, scoped_app. split; [exact (option_scoped _ _ _ _ OM P)|]. apply IH. lia.
Qed.
Lemma suffix_fine t p : port_suffix t p -> bind_port_fine p.
Proof. destruct p as [[wp k]|]; cbn; [|auto]. intros (_ & L & _). cbn. lia. Qed.
Lemma option_fine u n ws oes : option_means E B cwd u n ws oes -> Forall (fine E) (effects oes).
Proof.
  intros M. destruct M; try (constructor; fail); try (constructor; [exact Logic.I || assumption|constructor; fail]).
  - rewrite effects_map. exact (means_fine _ _ _ _ _ _ _ H2).
  - change (effects (OStdin :: map OE es)) with (effects (map OE es)). rewrite effects_map. exact (means_fine _ _ _ _ _ _ _ H2).
  - constructor; [exact (peer_means_fine _ _ _ _ _ H0)|constructor].
  - constructor; [|constructor]. split; [|left; reflexivity]. destruct H1; eapply suffix_fine; eassumption.
Qed.
Lemma line_fine u n args oes : line_means E B cwd u n args oes -> Forall (fine E) (effects oes).
Proof.
  induction 1 as [|u n ws x tl y OM M IH]; [constructor|]. rewrite effects_app. apply Forall_app. split; [exact (option_fine _ _ _ _ OM)|exact IH].
Qed.

Lemma wfc_default : wfc default_config.
Proof. split; [reflexivity|]. cbn. intros g I. lia. Qed.
Lemma states_iff oes o : scoped 1 (effects oes) -> (app_os E oes start = Some o <-> states E oes o).
Proof.
  intros S. rewrite app_os_is. cbn [o_conf start]. split.
  - destruct (app_all E (effects oes) default_config) as [c|] eqn:A; [|discriminate]. intros [= <-]. apply (sum_iff E _ c S) in A. constructor; try reflexivity.
    exists c. split; [exact A|reflexivity].
  - intros [(c & D & C) S1 S2 S3 S4 S5 S6 S7]. apply (sum_iff E _ c S) in D. rewrite D. cbn [option_map]. f_equal. destruct o as [oc osi od op ov og os om]. cbn in *. subst.
    unfold totals. cbn [o_conf o_stdin o_daemon o_pid o_verify o_generate o_show o_machine start orb]. reflexivity.
Qed.
Lemma line_states args oes o : line_means E B cwd false 1 args oes -> (app_os E oes start = Some o <-> states E oes o).
Proof. intros M. apply states_iff. exact (line_scoped _ _ _ _ M ltac:(lia)). Qed.
Lemma with_log_is o : set_conf (match c_stderr (o_conf o), c_syslog (o_conf o) with None, None => set_c_stderr (Some level_default) (o_conf o) | _, _ => o_conf o end) o = with_log o.
Proof. unfold with_log. destruct (c_stderr (o_conf o)), (c_syslog (o_conf o)); rewrite ?set_conf_same; reflexivity. Qed.
Lemma configure_is args d : configure E B cwd args = Ok d <-> exists x, handle E B cwd args start = Ok x /\ d = match x with Exit0 => Exit0 | Run o => Run (with_log o) end.
Proof.
  unfold configure. destruct (handle E B cwd args start) as [[|o]| | |]; cbn [bind]; rewrite ?with_log_is; split; try discriminate; try (intros (x & [= <-] & ->); reflexivity);
    try (intros (x & X & _); discriminate X).
  - intros [= <-]. exists Exit0. split; reflexivity.
  - intros [= <-]. exists (Run o). split; reflexivity.
Qed.

Theorem line_meaning args o : configure E B cwd args = Ok (Run o) <->
  exists oes o0, line_means E B cwd false 1 args oes /\ states E oes o0 /\ o = with_log o0.
Proof.
  rewrite configure_is. split.
  - intros ([|o0] & H & [= ->]). destruct (handle_sound E B cwd args start _ wfc_default H) as (pre & rest & oes & o' & -> & M & A & F).
    destruct F as [(-> & X)|[(a & tl & _ & _ & X)|[X|(a & k & v & tl & _ & _ & X & N)]]]; try discriminate X.
    + injection X as ->. rewrite app_nil_r. exists oes, o'. split; [exact M|]. split; [|reflexivity]. apply (line_states pre); assumption.
    + exfalso. destruct (do_arg E cwd k v o') as [o1| | |] eqn:D; try discriminate X. exact (N o1 eq_refl).
  - intros (oes & o0 & M & S & ->). exists (Run o0). split; [|reflexivity]. apply (line_states args) in S; [|exact M].
    pose proof (handle_line E B cwd start args oes start o0 [] M wfc_default S eq_refl) as H. rewrite app_nil_r in H. rewrite H. reflexivity.
Qed.
Theorem line_help args : configure E B cwd args = Ok Exit0 <->
  exists pre a rest oes o, args = pre ++ a :: rest /\ line_means E B cwd false 1 pre oes /\ states E oes o /\ is_help a.
Proof.
  rewrite configure_is. split.
  - intros ([|o0] & H & X0); [clear X0|discriminate X0]. destruct (handle_sound E B cwd args start _ wfc_default H) as (pre & rest & oes & o' & -> & M & A & F).
    destruct F as [(-> & X)|[(a & tl & -> & HP & X)|[X|(a & k & v & tl & _ & _ & X & N)]]]; try discriminate X.
    + exists pre, a, tl, oes, o'. split; [reflexivity|]. split; [exact M|]. split; [apply (line_states pre); assumption|exact HP].
    + exfalso. destruct (do_arg E cwd k v o') as [o1| | |] eqn:D; try discriminate X. exact (N o1 eq_refl).
  - intros (pre & a & rest & oes & o & -> & M & S & HP). exists Exit0. split; [|reflexivity]. apply (line_states pre) in S; [|exact M].
    rewrite (handle_line E B cwd start pre oes start o (a :: rest) M wfc_default S eq_refl). apply (help_iff E B) in HP. destruct HP as (f & LK & D).
    cbn [handle]. rewrite LK, D. reflexivity.
Qed.

(** * Other outcomes *)

Lemma do_arg_out k v o : sane E -> wfc (o_conf o) -> do_arg E cwd k v o <> Bug /\ (do_arg E cwd k v o = UB <-> k = ABind /\ scoped_arg E v).
Proof.
  intros SN W.
  assert (OK : forall (r : res ost) (P : Prop), (match r with Ok _ | Fatal => True | _ => False end) -> ~ P -> r <> Bug /\ (r = UB <-> P)).
  { intros r P H N. destruct r; try destruct H; (split; [discriminate|]; split; [discriminate|intros X; destruct (N X)]). }
  destruct k; try (apply OK; [|intros [X _]; discriminate X]); try exact Logic.I.
  - cbn [do_arg]. unfold option_config. destruct (bytes_eqb v (w "-")).
    + destruct (readers E (max_depth - 1)) as [PR GR].
      assert (Q : forall f, match read_toks E (read_file E (max_depth - 1)) cwd f 0%nat None (o_conf o) with Ok _ | Fatal => True | _ => False end).
      { intros [[contents sched] err].
        pose proof (read_toks_total E (max_depth - 1) _ cwd contents sched err 0%nat None (o_conf o) SN PR GR (read_file_calm E (max_depth - 1) SN) W (wfc_pos _ W)) as T.
        destruct (read_toks _ _ _ _ _ _ _) as [[[c' p']|]| | |]; exact Logic.I || exact T. }
      match goal with |- context [read_toks E _ cwd ?f _ _ _] => specialize (Q f); destruct (read_toks E (read_file E (max_depth - 1)) cwd f 0%nat None (o_conf o)) as [[[c' p']|]| | |] end;
        exact Logic.I || exact Q.
    + pose proof (read_config_total E cwd (Some v) (o_conf o) SN W) as T. destruct (read_config _ _ _ _) as [[c|]| | |]; exact Logic.I || exact T.
  - cbn [do_arg]. unfold option_config_peer.
    pose proof (read_file_calm E max_depth SN cwd v 0%nat (Some (new_peer None 0)) (o_conf o) W (wfc_pos _ W)) as T.
    destruct (read_file _ _ _ _ _ _ _) as [[[c' [p'|]]|]| | |]; cbn [bind]; try exact Logic.I; try exact T.
    + unfold run_m. rewrite peer_add_eq. destruct (app_peer p' c'); exact Logic.I.
    + destruct T as (_ & _ & T). exact (T ltac:(discriminate) eq_refl).
  - cbn [do_arg]. rewrite dir_is. exact Logic.I.
  - cbn [do_arg]. unfold parse_log_level. repeat (destruct (bytes_eqb v _); [exact Logic.I|]). exact Logic.I.
  - cbn [do_arg]. unfold parse_log_level. repeat (destruct (bytes_eqb v _); [exact Logic.I|]). exact Logic.I.
  - cbn [do_arg]. unfold option_mode. repeat (destruct (bytes_eqb v _); [exact Logic.I|]). exact Logic.I.
  - cbn [do_arg]. destruct (number_fatal 576 65535 v) as [->|[n ->]]; exact Logic.I.
  - cbn [do_arg]. pose proof (bind_no_bug E v (o_conf o)) as NB. pose proof (bind_ub E v (o_conf o)) as U.
    destruct (option_bind E v (o_conf o)) as [c| | |]; cbn [bind].
    + split; [discriminate|]. split; [discriminate|]. intros [_ X]. apply U in X. discriminate X.
    + destruct (NB eq_refl).
    + split; [discriminate|]. split; [discriminate|]. intros [_ X]. apply U in X. discriminate X.
    + split; [discriminate|]. split; [intros _; split; [reflexivity|apply U; reflexivity]|reflexivity].
  - cbn [do_arg]. destruct (bytes_eqb _ _); exact Logic.I.
Qed.
Lemma bind_lookup a : lookup E B a = Some (inr ABind) <-> is_bind a /\ ob_operation B = true.
Proof.
  split.
  - intros L. apply lookup_some in L. destruct L as (ns & b & T & I & ->). unfold table in T.
    cbn [In] in T.
    repeat (destruct T as [T|T]; [pose proof (f_equal (fun x => snd (fst x)) T) as K; cbn [fst snd] in K; first [discriminate K|
      pose proof (f_equal snd T) as C; apply (f_equal (fun x => fst (fst x))) in T; cbn [fst snd] in C, T; rewrite <- T in I; split; [exact I|exact C]]|]). destruct T.
  - intros [[<-|[<-|[]]] C]; unfold lookup, table; rewrite C; reflexivity.
Qed.
Theorem line_total args : sane E ->
  configure E B cwd args <> Bug /\
  (configure E B cwd args = UB <->
   exists pre a v rest oes o, args = pre ++ a :: v :: rest /\ line_means E B cwd false 1 pre oes /\ states E oes o /\ ob_operation B = true /\ is_bind a /\ scoped_arg E v).
Proof.
  intros SN.
  assert (CF : forall r, configure E B cwd args = r -> (r = Bug \/ r = UB) -> handle E B cwd args start = match r with Bug => Bug | _ => UB end).
  { intros r <- X. unfold configure in *. destruct (handle E B cwd args start) as [[|o]| | |]; cbn [bind] in *; destruct X as [X|X]; try discriminate X; reflexivity. }
  split.
  - intros H. specialize (CF _ H (or_introl eq_refl)). cbn in CF. destruct (handle_sound E B cwd args start _ wfc_default CF) as (pre & rest & oes & o' & -> & M & A & F).
    destruct F as [(-> & X)|[(a & tl & -> & HP & X)|[X|(a & k & v & tl & _ & _ & X & N)]]]; try discriminate X.
    destruct (app_os_wfc E oes start o' A wfc_default) as [W _]. pose proof (do_arg_out k v o' SN W) as [NB _].
    destruct (do_arg E cwd k v o') as [o1| | |] eqn:D; try discriminate X; [exact (N o1 eq_refl)|exact (NB eq_refl)].
  - split.
    + intros H. specialize (CF _ H (or_intror eq_refl)). cbn in CF. destruct (handle_sound E B cwd args start _ wfc_default CF) as (pre & rest & oes & o' & -> & M & A & F).
      destruct F as [(-> & X)|[(a & tl & -> & HP & X)|[X|(a & k & v & tl & -> & LK & X & N)]]]; try discriminate X.
      destruct (app_os_wfc E oes start o' A wfc_default) as [W _]. pose proof (do_arg_out k v o' SN W) as [_ U].
      destruct (do_arg E cwd k v o') as [o1| | |] eqn:D; try discriminate X; [destruct (N o1 eq_refl)|]. destruct (proj1 U eq_refl) as [-> SA].
      apply bind_lookup in LK. destruct LK as [IB C]. exists pre, a, v, tl, oes, o'. split; [reflexivity|]. split; [exact M|]. split; [apply (line_states pre); assumption|].
      split; [exact C|]. split; [exact IB|exact SA].
    + intros (pre & a & v & rest & oes & o & -> & M & S & C & IB & SA). apply (line_states pre) in S; [|exact M]. unfold configure.
      rewrite (handle_line E B cwd start pre oes start o (a :: v :: rest) M wfc_default S eq_refl). cbn [handle].
      rewrite (proj2 (bind_lookup a) (conj IB C)). destruct (app_os_wfc E oes start o S wfc_default) as [W _].
      rewrite (proj2 (proj2 (do_arg_out ABind v o SN W)) (conj eq_refl SA)). reflexivity.
Qed.

Lemma range_ident i c : in_range E c -> in_range E (set_c_ident i c).
Proof. intros []. constructor; assumption. Qed.
Lemma range_stderr l c : in_range E c -> in_range E (set_c_stderr l c).
Proof. intros []. constructor; assumption. Qed.
Theorem line_ranges args o : configure E B cwd args = Ok (Run o) -> in_range E (o_conf o).
Proof.
  intros H. apply line_meaning in H. destruct H as (oes & o0 & M & S & ->).
  assert (R : in_range E (o_conf o0)).
  { destruct S as [(c & D & ->) _ _ _ _ _ _ _]. apply range_ident. exact (described_in_range E _ c (line_scoped _ _ _ _ M ltac:(lia)) (line_fine _ _ _ _ M) D). }
  unfold with_log. destruct (c_stderr (o_conf o0)), (c_syslog (o_conf o0)); try exact R. apply range_stderr. exact R.
Qed.
End Main.
