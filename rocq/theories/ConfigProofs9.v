(** The configuration that the statements in effect add up to. *)
From Verif Require Import Base BufferModel MethodModel AddrModel LexModel LexSpec HexSpec ConfigModel ConfigSpec ConfigProofs ConfigProofs2 ConfigProofs3
  ConfigProofs4 ConfigProofs5 ConfigProofs6.
From Verif Require NameModel.
From Coq Require Import String Permutation.
Local Open Scope N_scope.

(** * Queries, one more at the end *)

Lemma last_snoc {A B} (f : A -> option B) d l x : last_of f d (l ++ [x]) = match f x with Some v => v | None => last_of f d l end.
Proof. unfold last_of. rewrite fold_left_app. reflexivity. Qed.
Lemma all_snoc {A B} (f : A -> option B) l x : all_of f (l ++ [x]) = all_of f l ++ match f x with Some v => [v] | None => [] end.
Proof. unfold all_of. rewrite flat_map_app. cbn. rewrite app_nil_r. reflexivity. Qed.
Lemma settings_snoc es e : settings (es ++ [e]) = settings es ++ match e with ESet _ s => [s] | _ => [] end.
Proof. unfold settings. rewrite all_snoc. destruct e; reflexivity. Qed.
Lemma peers_snoc es e : peers (es ++ [e]) = peers es ++ match e with EPeer n g ps => [(n, g, ps)] | _ => [] end.
Proof. unfold peers. rewrite all_snoc. destruct e; reflexivity. Qed.
Lemma heads_snoc es e : all_heads (es ++ [e]) = all_heads es ++ match e with EGroup g name => [(name, Some g)] | _ => [] end.
Proof. unfold all_heads. rewrite heads_app. cbn. f_equal. f_equal. destruct e; reflexivity. Qed.
Lemma all_heads_length es : List.length (all_heads es) = S (groups es).
Proof. reflexivity. Qed.
Lemma binds_snoc E l s : binds E (l ++ [s]) = binds E l ++
  match s with SBind h p dev d => binds_of E h p dev d | SBindScoped a i p d => binds_of E (H6 a) p (Some i) d | _ => [] end.
Proof. unfold binds. rewrite flat_map_app. cbn. rewrite app_nil_r. reflexivity. Qed.

(** * Bind addresses *)

Lemma combine_app {A B} (a a' : list A) (b b' : list B) : List.length a = List.length b -> combine (a ++ a') (b ++ b') = combine a b ++ combine a' b'.
Proof. revert b. induction a as [|x a IH]; intros [|y b] L; cbn in *; try discriminate; [reflexivity|]. rewrite IH by lia. reflexivity. Qed.
Lemma positions_snoc {A} (P : A -> bool) l x : positions P (l ++ [x]) = positions P l ++ (if P x then [List.length l] else []).
Proof.
  unfold positions. rewrite app_length. cbn [List.length]. rewrite Nat.add_1_r, seq_S, combine_app by apply seq_length.
  cbn [combine Nat.add]. rewrite filter_app. cbn. rewrite map_app. destruct (P x); reflexivity.
Qed.
Lemma positions_sub {A} (P Q : A -> bool) l : positions P l = [] -> positions (fun x => P x && Q x) l = [].
Proof.
  unfold positions. generalize 0%nat as n. induction l as [|x l IH]; intros n; cbn; [reflexivity|]. destruct (P x); cbn; [discriminate|]. apply IH.
Qed.
Lemma default_snoc fits says l b : default_bind fits says (l ++ [b]) =
  if fits b && (says b || match default_bind fits says l with None => true | Some _ => false end) then Some (List.length l) else default_bind fits says l.
Proof.
  unfold default_bind. rewrite !positions_snoc. destruct (fits b) eqn:F; cbn [andb].
  - destruct (says b) eqn:S; cbn [orb].
    + rewrite rev_app_distr. reflexivity.
    + rewrite app_nil_r. destruct (rev (positions (fun b => fits b && says b) l)); [|reflexivity].
      destruct (positions fits l); reflexivity.
  - rewrite !app_nil_r. reflexivity.
Qed.

Record bound (B : list bind_addr) (c : conf) : Prop := {
  bound_all : c_binds c = rev B;
  bound4 : c_default4 c = default_bind fits4 ba_def4 B;
  bound6 : c_default6 c = default_bind fits6 ba_def6 B }.
Lemma bound_one B c b : bound B c -> bound (B ++ [b]) (app_bind c b).
Proof.
  intros [A X Y]. assert (L : List.length (c_binds c) = List.length B) by (rewrite A; apply rev_length).
  split; rewrite ?rev_app_distr, ?default_snoc, <- ?A, <- ?X, <- ?Y; unfold app_bind; cbn; rewrite L;
    destruct (fits4 b && (ba_def4 b || _)); cbn; destruct (fits6 b && (ba_def6 b || _)); reflexivity.
Qed.
Lemma bound_all_of l : forall B c, bound B c -> bound (B ++ l) (fold_left app_bind l c).
Proof.
  induction l as [|b l IH]; intros B c H; cbn [fold_left]; [rewrite app_nil_r; exact H|].
  change (b :: l) with ([b] ++ l). rewrite app_assoc. apply IH. apply bound_one. exact H.
Qed.
(** The rest of the configuration is not touched *)
Definition unbound (c : conf) : conf := set_c_binds [] (set_c_default4 None (set_c_default6 None c)).
Lemma unbound_one c b : unbound (app_bind c b) = unbound c.
Proof. unfold app_bind. destruct (fits4 b && _), (fits6 b && _); reflexivity. Qed.
Lemma unbound_all l : forall c, unbound (fold_left app_bind l c) = unbound c.
Proof. induction l as [|b l IH]; intros c; [reflexivity|]. cbn [fold_left]. rewrite IH. apply unbound_one. Qed.

(** * Groups *)

Lemma distinct_snoc l s : distinct (l ++ [s]) = NameModel.config_method (distinct l) s.
Proof.
  unfold NameModel.config_method, NameModel.contains. induction l as [|x l IH]; [reflexivity|]. cbn [distinct List.app existsb]. rewrite IH.
  destruct (bytes_eqb x s) eqn:XS; cbn [orb].
  - apply word_eqb in XS. subst x. destruct (existsb _ (distinct l)) eqn:X; [reflexivity|]. rewrite filter_app. cbn.
    rewrite (proj2 (word_eqb s s) eq_refl). cbn. rewrite app_nil_r. reflexivity.
  - assert (SX : bytes_eqb s x = false). { destruct (bytes_eqb s x) eqn:Y; [|reflexivity]. apply word_eqb in Y. subst. rewrite (proj2 (word_eqb x x) eq_refl) in XS. discriminate. }
    assert (EX : existsb (fun y => bytes_eqb y s) (filter (fun y => negb (bytes_eqb y x)) (distinct l)) = existsb (fun y => bytes_eqb y s) (distinct l)).
    { clear IH. induction (distinct l) as [|y r IHr]; [reflexivity|]. cbn. destruct (bytes_eqb y x) eqn:Y; cbn.
      - apply word_eqb in Y. subst y. rewrite XS. exact IHr.
      - rewrite IHr. reflexivity. }
    rewrite EX. destruct (existsb _ (distinct l)) eqn:X; [reflexivity|]. rewrite filter_app. cbn. rewrite SX. reflexivity.
Qed.

Definition group_step (e : effect) (i : nat) (x : group_conf) : group_conf :=
  match e with
  | ELimit g n => if Nat.eqb g i then set_gc_limit (Some n) x else x
  | EMethod g s => if Nat.eqb g i then set_gc_methods (NameModel.config_method (gc_methods x) s) x else x
  | EOn g h c => if Nat.eqb g i then set_hook h (Some c) x else x
  | EDir g d => if Nat.eqb g i then set_gc_dirs (d :: gc_dirs x) x else x
  | _ => x
  end.
Lemma group_is_snoc es e i h : group_is (es ++ [e]) i h = group_step e i (group_is es i h).
Proof.
  unfold group_is. rewrite !last_snoc, !all_snoc.
  destruct e as [| |g n|g s|g [] c|g c|g d|]; cbn [group_step]; rewrite ?app_nil_r; try reflexivity; destruct (Nat.eqb g i); rewrite ?app_nil_r; try reflexivity.
  - rewrite distinct_snoc. reflexivity.
  - rewrite rev_app_distr. reflexivity.
Qed.

(** An effect is below [n] if it is in one of the first [n] groups *)
Definition below (n : nat) (e : effect) : Prop :=
  match e with ESet _ _ => True | EGroup g _ | ELimit g _ | EMethod g _ | EOn g _ _ | EVerify g _ | EDir g _ | EPeer _ g _ => (g < n)%nat end.
Fixpoint scoped (n : nat) (es : list effect) : Prop :=
  match es with [] => True | e :: r => below n e /\ scoped (n + groups [e]) r end.
Lemma scoped_app a : forall n b, scoped n (a ++ b) <-> scoped n a /\ scoped (n + groups a) b.
Proof.
  induction a as [|e a IH]; intros n b; cbn [scoped List.app].
  - cbn. rewrite Nat.add_0_r. tauto.
  - rewrite IH. change (e :: a) with ([e] ++ a). rewrite (groups_app [e] a), Nat.add_assoc. tauto.
Qed.
Lemma below_le n m e : (n <= m)%nat -> below n e -> below m e.
Proof. destruct e; cbn; lia. Qed.
Lemma scoped_below es : forall n, scoped n es -> Forall (below (n + groups es)) es.
Proof.
  induction es as [|e es IH]; intros n H; [constructor|]. destruct H as [B S]. rewrite (groups_app [e] es : groups (e :: es) = _), Nat.add_assoc. constructor.
  - apply (below_le n); [lia|exact B].
  - apply IH. exact S.
Qed.
Lemma means_scoped E d cwd g n body es : means E d cwd g n body es -> (g < n)%nat -> scoped n es.
Proof.
  assert (P : forall n e es, groups [e] = O -> below n e -> scoped n es -> scoped n (e :: es)).
  { intros m e r G B S. cbn [scoped]. rewrite G, Nat.add_0_r. split; assumption. }
  induction 1 as [ | d cwd n s body es F M IH | d cwd g n name inner ps body es PM M IH | d cwd g n name inner ei body es MI IHI M IH
    | d cwd g n k body es L M IH | d cwd g n s body es M IH | d cwd g n h sy s body es M IH | d cwd g n sy s body es D M IH
    | d cwd g n f name dir inner ps body es FI PM M IH | d cwd g n dir abs body es CD M IH | d cwd g n dir body es CD M IH
    | d cwd g n f dir inner ei body es FI MI IHI M IH ]; intros G; try (apply P; [reflexivity|exact G || exact Logic.I|exact (IH G)]).
  - exact Logic.I.
  - change (EGroup g name :: ei ++ es) with ([EGroup g name] ++ ei ++ es). rewrite !scoped_app.
    assert (X : (n + groups [EGroup g name] = S n)%nat) by (unfold groups; cbn; lia). rewrite X. split; [split; [exact G|exact Logic.I]|].
    split; [apply IHI; lia|apply IH; lia].
  - exact (IH G).
  - rewrite scoped_app. split; [exact (IHI G)|apply IH; lia].
Qed.
Lemma group_is_new es i h : Forall (below i) es -> group_is es i h = new_group (fst h) (snd h).
Proof.
  induction es as [|e es IH] using rev_ind; intros F; [reflexivity|]. rewrite group_is_snoc. apply Forall_app in F. destruct F as [F B].
  inversion B as [|? ? B' _]; subst. rewrite IH by exact F.
  destruct e; cbn [group_step]; try reflexivity; cbn in B'; (destruct (Nat.eqb_spec g i); [lia|reflexivity]).
Qed.

(** * Peers *)

Lemma app_psets_peer E name g ps : let q := app_psets E ps (new_peer name g) in
  pc_name q = name /\ pc_group q = g /\ pc_dir q = None /\ pc_remotes q = all_of (remote_is E) ps /\
  pc_float q = last_of (fun s => match s with PFloat b => Some b | _ => None end) false ps /\
  pc_ifname q = last_of (fun s => match s with PIface s => Some (Some s) | _ => None end) None ps /\
  pc_mtu q = last_of (fun s => match s with PMtu n => Some n | _ => None end) 0 ps /\
  pc_key q = match last_of (fun s => match s with PKey s => Some (Some s) | _ => None end) None ps with Some s => key_of E s | None => None end.
Proof.
  cbn zeta. induction ps as [|s ps IH] using rev_ind; [repeat split|].
  rewrite app_psets_app. cbn [app_psets fold_left]. rewrite !last_snoc, !all_snoc. unfold app_psets in *.
  destruct IH as (A1 & A2 & A3 & A4 & A5 & A6 & A7 & A8).
  destruct s as [? ? []|? ? []|? ? ? []|? ? []| | | |]; cbn; rewrite ?app_nil_r, ?A4; repeat split; assumption || reflexivity.
Qed.
Lemma peer_is_iff E name g ps p : peer_is E (name, g, ps) p <-> p = app_psets E ps (new_peer name g) /\ pc_key p <> None.
Proof.
  pose proof (app_psets_peer E name g ps) as (A1 & A2 & A3 & A4 & A5 & A6 & A7 & A8). split.
  - intros (B1 & B2 & B3 & B4 & B5 & B6 & B7 & s & k & L & KI & B8). apply key_of_iff in KI. rewrite L, KI in A8.
    split; [|rewrite B8; discriminate].
    destruct p, (app_psets E ps (new_peer name g)). cbn in *. subst. reflexivity.
  - intros [-> N]. unfold peer_is. repeat split; try assumption.
    rewrite A8 in N. clear A6. destruct (last_of _ None ps) as [s|] eqn:L; [|destruct N; reflexivity]. destruct (key_of E s) as [k|] eqn:KO; [|congruence].
    exists s, k. split; [reflexivity|]. split; [apply key_of_iff; exact KO|exact A8].
Qed.
Lemma peers_unique E l : forall a b, Forall2 (peer_is E) l a -> Forall2 (peer_is E) l b -> a = b.
Proof.
  induction l as [|[[n g] ps] l IH]; intros a b A B; inversion A; inversion B; subst; [reflexivity|].
  f_equal; [|apply IH; assumption].
  match goal with H1 : peer_is _ _ ?x, H2 : peer_is _ _ ?y |- ?x = ?y => apply peer_is_iff in H1, H2; destruct H1 as [-> _], H2 as [-> _] end. reflexivity.
Qed.
Lemma known_iff k l : existsb (fun q => match pc_key q with Some k' => bytes_eqb k k' | None => false end) l = true <-> In (Some k) (map pc_key l).
Proof.
  rewrite existsb_exists, in_map_iff. split.
  - intros (q & I & H). destruct (pc_key q) as [k'|] eqn:Q; [|discriminate]. apply word_eqb in H. subst k'. exists q. split; assumption.
  - intros (q & Q & I). exists q. split; [exact I|]. rewrite Q. apply word_eqb. reflexivity.
Qed.
Lemma NoDup_snoc {A} (l : list A) x : NoDup (l ++ [x]) <-> NoDup l /\ ~ In x l.
Proof.
  split.
  - intros H. apply NoDup_remove in H. rewrite app_nil_r in H. exact H.
  - intros [H N]. apply (Permutation_NoDup (Permutation_cons_append l x)). constructor; assumption.
Qed.

(** * All effects *)

Ltac fields D := destruct D; constructor; rewrite ?settings_snoc, ?app_nil_r, ?last_snoc, ?all_snoc, ?rev_app_distr, ?fold_left_app, ?binds_snoc, ?app_nil_r;
  try (cbn; assumption).

Lemma groups_same E es e c : describes E es c -> (forall g n, e <> EGroup g n) -> (forall i h, group_is (es ++ [e]) i h = group_is es i h) ->
  forall i, nth_error (c_groups c) i = option_map (group_is (es ++ [e]) i) (nth_error (all_heads (es ++ [e])) i).
Proof.
  intros D N S i. rewrite heads_snoc.
  replace (match e with EGroup g name => [(name, Some g)] | _ => [] end) with (@nil (bytes * option nat)) by (destruct e; try reflexivity; destruct (N parent name); reflexivity).
  rewrite app_nil_r, (d_groups _ _ _ D i). destruct (nth_error (all_heads es) i); [|reflexivity]. cbn. rewrite S. reflexivity.
Qed.
Lemma groups_update E es e c g f : describes E es c -> (forall g n, e <> EGroup g n) ->
  (forall i x, group_step e i x = if Nat.eqb g i then f x else x) ->
  forall i, nth_error (c_groups (update_group g f c)) i = option_map (group_is (es ++ [e]) i) (nth_error (all_heads (es ++ [e])) i).
Proof.
  intros D N S i. rewrite heads_snoc.
  replace (match e with EGroup g name => [(name, Some g)] | _ => [] end) with (@nil (bytes * option nat)) by (destruct e; try reflexivity; destruct (N parent name); reflexivity).
  rewrite app_nil_r. cbn. rewrite update_nth, (d_groups _ _ _ D i), Nat.eqb_sym. destruct (nth_error (all_heads es) i) as [h|]; cbn [option_map].
  - rewrite group_is_snoc, S. destruct (Nat.eqb g i); reflexivity.
  - destruct (Nat.eqb g i); reflexivity.
Qed.

Lemma describes_set E es c dir s : describes E es c -> describes E (es ++ [ESet dir s]) (app_set E dir s c).
Proof.
  intros D.
  assert (DG : forall i, nth_error (c_groups (app_set E dir s c)) i = option_map (group_is (es ++ [ESet dir s]) i) (nth_error (all_heads (es ++ [ESet dir s])) i)).
  { intros i. destruct (app_set_groups E dir s c) as [-> _]. apply (groups_same E); [exact D|discriminate|]. intros j h. apply group_is_snoc. }
  assert (DP : c_peers (app_set E dir s c) = c_peers c) by apply app_set_groups.
  assert (BI : forall l, unbound (fold_left app_bind l c) = unbound c) by (intros l; apply unbound_all).
  assert (BO : forall l, bound (binds E (settings es) ++ l) (fold_left app_bind l c)).
  { intros l. apply bound_all_of. split; apply D. }
  assert (DL : (c_stderr (app_set E dir s c), c_syslog (app_set E dir s c)) = log_step (c_stderr c, c_syslog c) s).
  { destruct s; cbn [app_set]; try reflexivity.
    - destruct (log_step _ _); reflexivity.
    - destruct ident; destruct l; reflexivity.
    - rewrite (f_equal c_stderr (BI (binds_of E h p dev dflt)) : c_stderr (fold_left _ _ _) = c_stderr c).
      rewrite (f_equal c_syslog (BI (binds_of E h p dev dflt)) : c_syslog (fold_left _ _ _) = c_syslog c). reflexivity.
    - rewrite (f_equal c_stderr (BI (binds_of E (H6 a) p (Some dev) dflt)) : c_stderr (fold_left _ _ _) = c_stderr c).
      rewrite (f_equal c_syslog (BI (binds_of E (H6 a) p (Some dev) dflt)) : c_syslog (fold_left _ _ _) = c_syslog c). reflexivity.
    - destruct (b_offload _); reflexivity. }
  assert (DL' : (c_stderr (app_set E dir s c), c_syslog (app_set E dir s c)) = fold_left log_step (settings (es ++ [ESet dir s])) (None, None)).
  { rewrite settings_snoc, fold_left_app, <- (d_log _ _ _ D). exact DL. }
  assert (DP' : Forall2 (peer_is E) (peers (es ++ [ESet dir s])) (c_peers (app_set E dir s c))).
  { rewrite DP, peers_snoc, app_nil_r. exact (d_peers _ _ _ D). }
  assert (DK : NoDup (map pc_key (c_peers (app_set E dir s c)))) by (rewrite DP; exact (d_keys _ _ _ D)).
  clear DL DP.
  destruct s; destruct D; constructor;
    lazymatch goal with
    | |- (_, _) = _ => exact DL'
    | |- forall _, _ => exact DG
    | |- Forall2 _ _ _ => exact DP'
    | |- NoDup _ => exact DK
    | _ => clear DL' DG DP' DK; rewrite ?settings_snoc, ?last_snoc, ?all_snoc, ?rev_app_distr, ?binds_snoc, ?app_nil_r
    end; try (cbn; assumption); try (cbn; congruence).
  all: try match goal with
    | |- ?f (app_set _ _ (SBind ?h ?p ?dev ?d) ?c) = _ => cbn [app_set];
        first [etransitivity; [exact (f_equal f (BI (binds_of _ h p dev d)))|cbn; assumption] | apply BO]
    | |- ?f (app_set _ _ (SBindScoped ?a ?i ?p ?d) ?c) = _ => cbn [app_set];
        first [etransitivity; [exact (f_equal f (BI (binds_of _ (H6 a) p (Some i) d)))|cbn; assumption] | apply BO]
    | |- _ (app_set _ _ (SLogSyslog ?i _) _) = _ => destruct i; cbn; assumption || reflexivity
    | |- _ (app_set _ _ (SOffload _) _) = _ => cbn [app_set]; destruct (b_offload _); cbn; assumption || reflexivity
    end.
Qed.
Lemma describes_step E n es e c c' : describes E es c -> below (List.length (c_groups c)) e -> Forall (below (List.length (c_groups c))) es ->
  List.length (c_groups c) = n -> n = S (groups es) -> app E e c = Some c' -> describes E (es ++ [e]) c'.
Proof.
  intros D B FB L LN A.
  assert (U : forall g f, (forall g n, e <> EGroup g n) -> (forall d s, e <> ESet d s) -> (forall g x, e <> EVerify g x) -> (forall n g ps, e <> EPeer n g ps) ->
    (forall i x, group_step e i x = if Nat.eqb g i then f x else x) -> describes E (es ++ [e]) (update_group g f c)).
  { intros g f N1 N2 N3 N4 S. pose proof (groups_update E es e c g f D N1 S) as DG.
    assert (X : match e with ESet _ s => [s] | _ => [] end = []) by (destruct e; reflexivity || (edestruct N2; reflexivity)).
    destruct D; constructor; rewrite ?settings_snoc, ?X, ?app_nil_r; try assumption.
    1-4: rewrite last_snoc; destruct e; try assumption; try (edestruct N2; reflexivity); try (edestruct N3; reflexivity).
    rewrite peers_snoc. destruct e; try (rewrite app_nil_r; assumption). edestruct N4; reflexivity. }
  destruct e; cbn [app] in A.
  - injection A as <-. apply describes_set. exact D.
  - injection A as <-.
    assert (DG : forall i, nth_error (c_groups c ++ [new_group name (Some parent)]) i =
      option_map (group_is (es ++ [EGroup parent name]) i) (nth_error (all_heads (es ++ [EGroup parent name])) i)).
    { intros i. rewrite heads_snoc. destruct (Nat.lt_ge_cases i n) as [Lt|Ge].
      - rewrite !nth_error_app1 by (rewrite ?all_heads_length; lia). rewrite (d_groups _ _ _ D i). destruct (nth_error (all_heads es) i); [|reflexivity].
        cbn. rewrite group_is_snoc. reflexivity.
      - rewrite !nth_error_app2 by (rewrite ?all_heads_length; lia). rewrite all_heads_length, L, LN.
        destruct (i - S (groups es))%nat as [|k] eqn:I; [|destruct k; reflexivity]. cbn. assert (IN : i = n) by lia. rewrite IN. rewrite L in *.
        rewrite group_is_snoc, (group_is_new es n (name, Some parent) FB). reflexivity. }
    destruct D; constructor; cbn; rewrite ?settings_snoc, ?app_nil_r, ?last_snoc, ?peers_snoc, ?app_nil_r; try assumption.
  - injection A as <-. apply U; try discriminate. reflexivity.
  - injection A as <-. apply U; try discriminate. reflexivity.
  - injection A as <-. apply U; try discriminate. reflexivity.
  - injection A as <-. pose proof (groups_same E es (EVerify g c0) c D ltac:(discriminate) ltac:(intros; apply group_is_snoc)) as DG.
    destruct D; constructor; cbn; rewrite ?settings_snoc, ?app_nil_r, ?last_snoc, ?peers_snoc, ?app_nil_r; try assumption; reflexivity.
  - injection A as <-. apply U; try discriminate. reflexivity.
  - unfold app_peer in A. set (q := app_psets E ps (new_peer name g)) in *. destruct (pc_key q) as [k|] eqn:KQ; [|discriminate].
    destruct (existsb _ _) eqn:X; [discriminate|]. injection A as <-.
    pose proof (groups_same E es (EPeer name g ps) c D ltac:(discriminate) ltac:(intros; apply group_is_snoc)) as DG.
    assert (DK : NoDup (map pc_key (c_peers c ++ [q]))).
    { rewrite map_app. apply NoDup_snoc. split; [exact (d_keys _ _ _ D)|]. rewrite KQ. intros I. apply known_iff in I. congruence. }
    assert (DP : Forall2 (peer_is E) (peers (es ++ [EPeer name g ps])) (c_peers c ++ [q])).
    { rewrite peers_snoc. apply Forall2_app; [exact (d_peers _ _ _ D)|]. constructor; [|constructor]. apply peer_is_iff. split; [reflexivity|congruence]. }
    destruct D; constructor; cbn; rewrite ?settings_snoc, ?app_nil_r, ?last_snoc; try assumption.
Qed.
Lemma describes_default E : describes E [] default_config.
Proof.
  constructor; try reflexivity; try constructor.
  - cbn. rewrite Bool.andb_false_r. reflexivity.
  - intros [|[|i]]; reflexivity.
Qed.

Lemma sum_describes E es : forall c, scoped 1 es -> app_all E es default_config = Some c -> describes E es c.
Proof.
  induction es as [|e es IH] using rev_ind; intros c S A.
  - injection A as <-. apply describes_default.
  - apply scoped_app in S. destruct S as [S [B _]]. rewrite app_all_app in A. destruct (app_all E es default_config) as [c1|] eqn:A1; [|discriminate].
    cbn [app_all] in A. destruct (app E e c1) as [c2|] eqn:A2; [|discriminate]. injection A as ->.
    destruct (app_all_groups E es _ _ A1) as [L _]. cbn in L.
    apply (describes_step E (List.length (c_groups c1)) es e c1 c (IH c1 S eq_refl)); try assumption; try reflexivity.
    + rewrite L. exact B.
    + rewrite L. exact (scoped_below es 1 S).
Qed.

Lemma nth_error_ext {A} (a : list A) : forall b, (forall i, nth_error a i = nth_error b i) -> a = b.
Proof.
  induction a as [|x a IH]; intros [|y b] H; try reflexivity; try discriminate (H O). f_equal; [exact (f_equal (fun o => match o with Some v => v | None => x end) (H O))|].
  apply IH. intros i. exact (H (S i)).
Qed.
Lemma describes_unique E es a b : describes E es a -> describes E es b -> a = b.
Proof.
  intros A B.
  assert (G : c_groups a = c_groups b) by (apply nth_error_ext; intros i; rewrite (d_groups _ _ _ A i), (d_groups _ _ _ B i); reflexivity).
  assert (P : c_peers a = c_peers b) by exact (peers_unique E _ _ _ (d_peers _ _ _ A) (d_peers _ _ _ B)).
  assert (L : (c_stderr a, c_syslog a) = (c_stderr b, c_syslog b)) by (rewrite (d_log _ _ _ A), (d_log _ _ _ B); reflexivity).
  destruct A, B, a, b. cbn in *. injection L as -> ->. subst. reflexivity.
Qed.
Lemma peers_app a b : peers (a ++ b) = peers a ++ peers b.
Proof. apply flat_map_app. Qed.
Lemma sum_none E es : scoped 1 es -> app_all E es default_config = None -> forall c, ~ describes E es c.
Proof.
  intros S A c D.
  assert (X : exists es1 e es2 c1, es = es1 ++ e :: es2 /\ app_all E es1 default_config = Some c1 /\ app E e c1 = None).
  { clear S D. revert A. induction es as [|e es IH] using rev_ind; intros A; [discriminate|]. rewrite app_all_app in A.
    destruct (app_all E es default_config) as [c1|] eqn:A1.
    - cbn [app_all] in A. destruct (app E e c1) eqn:A2; [discriminate|]. exists es, e, [], c1. repeat split; assumption.
    - destruct (IH eq_refl) as (es1 & e1 & es2 & c1 & -> & H1 & H2). exists es1, e1, (es2 ++ [e]), c1. rewrite <- app_assoc. repeat split; assumption. }
  destruct X as (es1 & e & es2 & c1 & -> & A1 & A2). apply scoped_app in S. destruct S as [S1 _].
  pose proof (sum_describes E es1 c1 S1 A1) as D1. destruct e; try discriminate A2. cbn [app] in A2.
  pose proof (d_peers _ _ _ D) as P. pose proof (d_keys _ _ _ D) as K. rewrite (peers_app es1 (_ :: es2)) in P. cbn [peers all_of flat_map List.app] in P.
  apply Forall2_app_inv_l in P. destruct P as (l1 & l2 & P1 & P2 & EQ). inversion P2 as [|? q ? l3 PQ P3]; subst.
  rewrite (peers_unique E _ _ _ P1 (d_peers _ _ _ D1)) in EQ. rewrite EQ, map_app in K. cbn [map] in K.
  apply peer_is_iff in PQ. destruct PQ as [-> N]. unfold app_peer in A2. destruct (pc_key (app_psets E ps (new_peer name g))) as [k|] eqn:KQ; [|congruence].
  destruct (existsb _ (c_peers c1)) eqn:X; [|discriminate]. apply known_iff in X.
  apply NoDup_remove in K. destruct K as [_ K]. apply K. apply in_or_app. left. exact X.
Qed.
Theorem sum_iff E es c : scoped 1 es -> (app_all E es default_config = Some c <-> describes E es c).
Proof.
  intros S. split; [apply sum_describes; exact S|]. intros D. destruct (app_all E es default_config) as [c1|] eqn:A.
  - f_equal. exact (describes_unique E es _ _ (sum_describes E es c1 S A) D).
  - destruct (sum_none E es S A c D).
Qed.
