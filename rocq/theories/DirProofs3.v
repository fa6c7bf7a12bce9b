(** Proofs about peer directories: the groups. *)
From Verif Require Import Base BufferModel LexModel LexSpec LexProofs4 ConfigModel ConfigSpec ConfigProofs ConfigProofs2 ConfigProofs3 ConfigProofs5 ConfigProofs6
  ConfigProofs8 ConfigProofs9 ConfigProofs10 ConfigProofs11 ConfigProofs12 DirModel DirSpec DirProofs DirProofs2.
From Coq Require Import String.
Local Open Scope nat_scope.

(** * The order of the groups *)

Definition rooted (c : conf) : Prop := forall i x, nth_error (c_groups c) i = Some x -> match gc_parent x with None => i = O | Some p => p < i end.

Lemma children_iff c g i : In i (children c g) <-> exists x, nth_error (c_groups c) i = Some x /\ gc_parent x = Some g.
Proof.
  unfold children. rewrite <- in_rev, filter_In, in_seq. split.
  - intros [_ H]. destruct (nth_error (c_groups c) i) as [x|]; [|discriminate]. exists x. split; [reflexivity|]. destruct (gc_parent x) as [p|]; [|discriminate].
    apply Nat.eqb_eq in H. subst. reflexivity.
  - intros (x & NX & P). rewrite NX, P. split; [|apply Nat.eqb_refl]. assert (i < List.length (c_groups c)) by (apply nth_error_Some; congruence). lia.
Qed.
Lemma children_nodup c g : NoDup (children c g).
Proof. unfold children. apply NoDup_rev. apply NoDup_filter. apply seq_NoDup. Qed.
Lemma children_above c g i : rooted c -> In i (children c g) -> g < i < List.length (c_groups c).
Proof.
  intros RT I. apply children_iff in I. destruct I as (x & NX & P). pose proof (RT i x NX) as Q. rewrite P in Q. split; [exact Q|]. apply nth_error_Some. congruence.
Qed.

Fixpoint preorder (c : conf) (f g : nat) : list nat :=
  match f with O => [] | S f => g :: flat_map (preorder c f) (children c g) end.

Lemma preorder_above c : rooted c -> forall f g i, g < List.length (c_groups c) -> In i (preorder c f g) -> g <= i < List.length (c_groups c).
Proof.
  intros RT. induction f as [|f IH]; intros g i G I; [destruct I|]. destruct I as [<-|I]; [lia|]. apply in_flat_map in I. destruct I as (k & K & I).
  apply (children_above c g k RT) in K. apply IH in I; lia.
Qed.
Definition count (i : nat) (l : list nat) : nat := count_occ Nat.eq_dec l i.
Lemma count_app i a b : count i (a ++ b) = count i a + count i b.
Proof. apply count_occ_app. Qed.
Lemma count_flat i (f : nat -> list nat) l : count i (flat_map f l) = list_sum (map (fun k => count i (f k)) l).
Proof. induction l as [|k l IH]; [reflexivity|]. cbn [flat_map map list_sum fold_right]. rewrite count_app, IH. reflexivity. Qed.
Lemma sum_ext (f g : nat -> nat) l : (forall k, In k l -> f k = g k) -> list_sum (map f l) = list_sum (map g l).
Proof. intros H. f_equal. apply map_ext_in. exact H. Qed.
Lemma sum_zero (f : nat -> nat) l : (forall k, In k l -> f k = 0) -> list_sum (map f l) = 0.
Proof.
  induction l as [|k l IH]; intros Z; [reflexivity|]. change (f k + list_sum (map f l) = 0). rewrite (Z k (or_introl eq_refl)), IH; [reflexivity|].
  intros j J. apply Z. right. exact J.
Qed.
Lemma sum_one (f : nat -> nat) i l : NoDup l -> In i l -> f i = 1 -> (forall k, In k l -> k <> i -> f k = 0) -> list_sum (map f l) = 1.
Proof.
  induction l as [|k l IH]; intros N I F Z; [destruct I|]. inversion N as [|? ? N1 N2]; subst. change (f k + list_sum (map f l) = 1).
  destruct I as [->|I].
  - rewrite F, sum_zero; [reflexivity|]. intros k K. apply Z; [right; exact K|]. intros ->. contradiction.
  - rewrite (Z k (or_introl eq_refl)) by (intros ->; contradiction). apply IH; [exact N2|exact I|exact F|]. intros j J. apply Z. right. exact J.
Qed.

Lemma preorder_count c : rooted c -> forall f g i x p, List.length (c_groups c) <= f + g -> g < List.length (c_groups c) -> i <> g ->
  nth_error (c_groups c) i = Some x -> gc_parent x = Some p -> count i (preorder c f g) = count p (preorder c f g).
Proof.
  intros RT. induction f as [|f IH]; intros g i x p F G N NX P; [reflexivity|]. cbn [preorder].
  unfold count. cbn [count_occ]. destruct (Nat.eq_dec g i) as [->|_]; [congruence|]. fold (count i (flat_map (preorder c f) (children c g))).
  fold (count p (flat_map (preorder c f) (children c g))). rewrite !count_flat.
  destruct (Nat.eq_dec g p) as [<-|NP].
  - assert (Z : list_sum (map (fun k => count g (preorder c f k)) (children c g)) = 0).
    { apply sum_zero. intros k K. apply count_occ_not_In. intros I. apply (children_above c g k RT) in K. apply preorder_above in I; [lia|exact RT|lia]. }
    rewrite Z. assert (I : In i (children c g)) by (apply children_iff; exists x; split; assumption).
    apply (sum_one _ i); [apply children_nodup|exact I| |].
    + destruct (children_above c g i RT I) as [L1 L2]. destruct f as [|f]; [lia|]. cbn [preorder]. unfold count. cbn [count_occ].
      destruct (Nat.eq_dec i i) as [_|X]; [|congruence]. f_equal. apply count_occ_not_In. intros J. apply in_flat_map in J. destruct J as (k & K & J).
      apply (children_above c i k RT) in K. apply preorder_above in J; [lia|exact RT|lia].
    + intros k K KI. pose proof (children_above c g k RT K) as [L1 L2]. rewrite (IH k i x g); [|lia|lia|congruence|exact NX|exact P].
      apply count_occ_not_In. intros J. apply preorder_above in J; [lia|exact RT|lia].
  - apply sum_ext. intros k K. pose proof (children_above c g k RT K) as [L1 L2]. apply (IH k i x p); [lia|lia| |exact NX|exact P].
    intros ->. apply children_iff in K. destruct K as (y & NY & PY). congruence.
Qed.

Lemma preorder_once c : rooted c -> 0 < List.length (c_groups c) -> forall i, i < List.length (c_groups c) -> count i (preorder c (List.length (c_groups c)) 0) = 1.
Proof.
  intros RT P i. induction i as [i IH] using (well_founded_induction lt_wf). intros L. destruct (Nat.eq_dec i 0) as [->|N].
  - destruct (List.length (c_groups c)) as [|f] eqn:LN; [lia|]. cbn [preorder]. unfold count. cbn [count_occ]. destruct (Nat.eq_dec 0 0) as [_|X]; [|congruence]. f_equal. apply count_occ_not_In.
    intros J. apply in_flat_map in J. destruct J as (k & K & J). apply (children_above c 0 k RT) in K. apply preorder_above in J; [lia|exact RT|lia].
  - destruct (nth_error (c_groups c) i) as [x|] eqn:NX; [|apply nth_error_None in NX; lia]. pose proof (RT i x NX) as Q.
    destruct (gc_parent x) as [p|] eqn:PX; [|congruence]. rewrite (preorder_count c RT _ 0 i x p); [|lia|lia|lia|exact NX|exact PX]. apply IH; lia.
Qed.

Lemma flat_map_split (f : nat -> list nat) l : forall a i b, flat_map f l = a ++ i :: b ->
  exists k a1 b1 a0, In k l /\ f k = a1 ++ i :: b1 /\ a = a0 ++ a1.
Proof.
  induction l as [|k l IH]; intros a i b H; [destruct a; discriminate H|]. cbn [flat_map] in H.
  destruct (Nat.lt_ge_cases (List.length a) (List.length (f k))) as [L|L].
  - exists k, a. assert (X : f k = a ++ skipn (List.length a) (f k)).
    { rewrite <- (firstn_skipn (List.length a) (f k)) at 1. f_equal. pose proof (f_equal (firstn (List.length a)) H) as Y.
      rewrite !firstn_app, firstn_all, Nat.sub_diag in Y. replace (List.length a - List.length (f k)) with 0 in Y by lia. cbn [firstn] in Y. rewrite !app_nil_r in Y. exact Y. }
    destruct (skipn (List.length a) (f k)) as [|j b1] eqn:SK; [rewrite app_nil_r in X; rewrite X in L; lia|].
    rewrite X, <- app_assoc in H. apply app_inv_head in H. cbn [List.app] in H. injection H as -> _. exists b1, []. split; [left; reflexivity|]. split; [exact X|reflexivity].
  - assert (X : a = f k ++ skipn (List.length (f k)) a).
    { rewrite <- (firstn_skipn (List.length (f k)) a) at 1. f_equal. pose proof (f_equal (firstn (List.length (f k))) H) as Y.
      rewrite !firstn_app, firstn_all, Nat.sub_diag in Y. replace (List.length (f k) - List.length a) with 0 in Y by lia. cbn [firstn] in Y. rewrite !app_nil_r in Y. symmetry. exact Y. }
    rewrite X, <- app_assoc in H. apply app_inv_head in H. destruct (IH _ _ _ H) as (j & a1 & b1 & a0 & J & FJ & EQ).
    exists j, a1, b1, (f k ++ a0). split; [right; exact J|]. split; [exact FJ|]. rewrite X, EQ, app_assoc. reflexivity.
Qed.

Lemma preorder_parents c : forall f g a i b x p, preorder c f g = a ++ i :: b -> i <> g -> nth_error (c_groups c) i = Some x -> gc_parent x = Some p -> In p a.
Proof.
  induction f as [|f IH]; intros g a i b x p H N NX P; [destruct a; discriminate H|]. cbn [preorder] in H. destruct a as [|g' a]; cbn [List.app] in H; injection H as E H; [congruence|].
  subst g'. apply flat_map_split in H. destruct H as (k & a1 & b1 & a0 & K & FK & ->). destruct (Nat.eq_dec i k) as [->|NK].
  - apply children_iff in K. destruct K as (y & NY & PY). left. congruence.
  - right. apply in_or_app. right. exact (IH k a1 i b1 x p FK NK NX P).
Qed.

Lemma preorder_fine c : rooted c -> 0 < List.length (c_groups c) -> let o := preorder c (List.length (c_groups c)) 0 in
  NoDup o /\ (forall g, In g o <-> g < List.length (c_groups c)) /\ parents_first c o.
Proof.
  intros RT P o. assert (I : forall g, In g o <-> g < List.length (c_groups c)).
  { intros g. split.
    - intros J. apply preorder_above in J; [lia|exact RT|exact P].
    - intros L. apply (count_occ_In Nat.eq_dec). fold (count g o). unfold o. rewrite preorder_once; [lia|exact RT|exact P|exact L]. }
  split; [|split; [exact I|]].
  - apply (NoDup_count_occ Nat.eq_dec). intros g. destruct (in_dec Nat.eq_dec g o) as [J|J].
    + fold (count g o). unfold o. rewrite preorder_once; [lia|exact RT|exact P|apply I; exact J].
    + apply (count_occ_not_In Nat.eq_dec) in J. rewrite J. lia.
  - intros a i b x p H NX PX. apply (preorder_parents c _ _ a i b x p H); [|exact NX|exact PX]. intros ->.
    pose proof (RT 0 x NX) as Q. rewrite PX in Q. lia.
Qed.

(** * Reading them *)

Section Groups.
Variable T : tree.
Let E := t_env T.

Definition visit (f : nat) : list nat -> bytes -> conf -> list peer_conf -> res (bytes * conf * list peer_conf) :=
  fix each (gs : list nat) (cwd : bytes) (c : conf) (l : list peer_conf) : res (bytes * conf * list peer_conf) :=
    match gs with
    | [] => Ok (cwd, c, l)
    | g :: r => do y <- read_group T f g cwd c; let '(cwd, c, l') := y in each r cwd c (l ++ l')
    end.
Lemma read_group_step f g cwd c : read_group T (S f) g cwd c = do x <- read_peer_dirs T cwd g c; let '(cwd, c, l) := x in visit f (children c g) cwd c l.
Proof. reflexivity. Qed.

Lemma read_peer_dirs_ok cwd0 g c cwd cwd' c' l : absolute_dirs T c -> read_peer_dirs T cwd g c = Ok (cwd', c', l) -> c' = c /\ of_group T cwd0 c g l.
Proof.
  intros A H. unfold read_peer_dirs in H. destruct (nth_error (c_groups c) g) as [x|] eqn:NX; [|discriminate].
  destruct (read_dirs T cwd g (gc_dirs x) c) as [[[w2 c2] l2]| | |] eqn:R; try discriminate H. cbn [bind] in H. injection H as _ <- <-.
  apply (read_dirs_ok T g c cwd0) in R; [|apply nth_error_Some; congruence|intros dir I; exact (A x dir (nth_error_In _ _ NX) I)].
  destruct R as [-> (ls & F & ->)]. split; [reflexivity|]. exists x, ls. repeat split; assumption.
Qed.

Lemma read_group_ok cwd0 c : absolute_dirs T c -> forall f g cwd cwd' c' l, read_group T f g cwd c = Ok (cwd', c', l) ->
  c' = c /\ exists ls, Forall2 (of_group T cwd0 c) (preorder c f g) ls /\ l = List.concat ls.
Proof.
  intros A. induction f as [|f IH]; intros g cwd cwd' c' l H; [discriminate H|]. rewrite read_group_step in H.
  destruct (read_peer_dirs T cwd g c) as [[[w1 c1] l1]| | |] eqn:R; try discriminate H. cbn [bind] in H.
  apply (read_peer_dirs_ok cwd0 g c) in R; [|exact A]. destruct R as [-> R].
  assert (V : forall gs w acc, visit f gs w c acc = Ok (cwd', c', l) ->
    c' = c /\ exists ls, Forall2 (of_group T cwd0 c) (flat_map (preorder c f) gs) ls /\ l = acc ++ List.concat ls).
  { induction gs as [|k gs IHg]; intros w acc V; cbn [visit] in V.
    - injection V as _ <- <-. split; [reflexivity|]. exists []. split; [constructor|rewrite app_nil_r; reflexivity].
    - destruct (read_group T f k w c) as [[[w2 c2] l2]| | |] eqn:R2; try discriminate V. cbn [bind] in V.
      apply IH in R2. destruct R2 as [-> (ls2 & F2 & ->)]. apply IHg in V. destruct V as [-> (ls & F & ->)]. split; [reflexivity|].
      exists (ls2 ++ ls). split; [apply Forall2_app; assumption|]. rewrite concat_app, app_assoc. reflexivity. }
  apply V in H. destruct H as [-> (ls & F & ->)]. split; [reflexivity|]. exists (l1 :: ls). split; [constructor; assumption|reflexivity].
Qed.

Lemma read_group_total c : sane E -> named T -> wfc c -> rooted c -> forall f g cwd, List.length (c_groups c) <= f + g -> g < List.length (c_groups c) ->
  fine (too_deep T c) c (fun y => snd (fst y)) (read_group T f g cwd c).
Proof.
  intros RS NM W RT. induction f as [|f IH]; intros g cwd F G; [lia|]. rewrite read_group_step.
  pose proof (read_peer_dirs_total T RS NM g c cwd W G) as R. destruct (read_peer_dirs T cwd g c) as [[[w1 c1] l1]| | |]; cbn in R; try (destruct R; fail).
  - subst c1. cbn [bind].
    assert (V : forall gs w acc, (forall k, In k gs -> In k (children c g)) -> fine (too_deep T c) c (fun y => snd (fst y)) (visit f gs w c acc)).
    { induction gs as [|k gs IHg]; intros w acc S; cbn [visit]; [reflexivity|].
      pose proof (children_above c g k RT (S k (or_introl eq_refl))) as [L1 L2].
      assert (FK : List.length (c_groups c) <= f + k) by lia. pose proof (IH k w FK L2) as X.
      destruct (read_group T f k w c) as [[[w2 c2] l2]| | |]; cbn in X; try (destruct X; fail); [|exact X]. subst c2. cbn [bind]. apply IHg. intros j J. apply S. right. exact J. }
    apply V. trivial.
  - exact R.
Qed.

(** The working directory *)
Lemma back c cwd : (forall a, e_cd E a cwd = Some cwd) -> forall f g cwd' c' l, absolute_dirs T c -> read_group T f g cwd c = Ok (cwd', c', l) -> cwd' = cwd.
Proof.
  intros B. induction f as [|f IH]; intros g cwd' c' l A H; [discriminate H|]. rewrite read_group_step in H.
  destruct (read_peer_dirs T cwd g c) as [[[w1 c1] l1]| | |] eqn:R; try discriminate H. cbn [bind] in H.
  assert (W1 : w1 = cwd).
  { unfold read_peer_dirs in R. destruct (nth_error (c_groups c) g) as [x|]; [|discriminate].
    destruct (read_dirs T cwd g (gc_dirs x) c) as [[[w2 c2] l2]| | |]; try discriminate R. cbn [bind] in R. fold E in R. rewrite B in R. injection R as <- _ _. reflexivity. }
  apply (read_peer_dirs_ok cwd g c) in R; [|exact A]. destruct R as [-> _]. subst w1.
  revert l1 H. generalize (children c g) as gs. induction gs as [|k gs IHg]; intros acc V; cbn [visit] in V.
  - injection V as <- _ _. reflexivity.
  - destruct (read_group T f k cwd c) as [[[w2 c2] l2]| | |] eqn:R2; try discriminate V. cbn [bind] in V.
    pose proof (IH _ _ _ _ A R2) as ->. apply (read_group_ok cwd c A) in R2. destruct R2 as [-> _]. exact (IHg _ V).
Qed.
End Groups.

(** * Configurations that were accepted *)

Definition real_effect (E : env) (e : effect) : Prop := match e with EDir _ abs => exists cwd dir, e_cd E cwd dir = Some abs | _ => True end.
Lemma means_real E d cwd g n body es : means E d cwd g n body es -> Forall (real_effect E) es.
Proof.
  induction 1; try (constructor; [exact Logic.I|assumption]); try assumption; try (constructor; fail).
  - constructor; [exact Logic.I|]. apply Forall_app. split; assumption.
  - constructor; [|assumption]. exists cwd, dir. assumption.
  - apply Forall_app. split; assumption.
Qed.

Lemma nonempty_all_of {A B} (f : A -> option B) l x : In x (all_of f l) -> exists a, In a l /\ f a = Some x.
Proof.
  unfold all_of. intros I. apply in_flat_map in I. destruct I as (a & J & K). exists a. split; [exact J|]. destruct (f a) as [v|]; [|destruct K].
  destruct K as [->|[]]. reflexivity.
Qed.

Lemma accepted_shape E cwd name c : read_config E cwd name default_config = Ok (Some c) ->
  wfc c /\ rooted c /\ forall x dir, In x (c_groups c) -> In dir (gc_dirs x) -> exists a d, e_cd E a d = Some dir.
Proof.
  intros H. split; [|split; [exact (r_groups E c (config_ranges E cwd name c H))|]].
  - assert (W : wfc default_config). { split; [reflexivity|]. cbn. intros g I. lia. }
    apply (read_config_is E cwd name default_config c W) in H. destruct H as (dir & body & es & M & B & A). exact (app_all_wfc E es _ _ A W).
  - intros x dir I J. apply config_meaning in H. destruct H as (d0 & body & es & M & B & D). apply In_nth_error in I. destruct I as [i NX].
    rewrite (d_groups E es c D i) in NX. destruct (nth_error (all_heads es) i) as [h|]; [|discriminate]. injection NX as <-. cbn [group_is gc_dirs] in J.
    apply in_rev in J. apply nonempty_all_of in J. destruct J as (e & EI & EE). pose proof (proj1 (Forall_forall _ _) (means_real E _ _ _ _ _ _ B) e EI) as R.
    destruct e; try discriminate EE. destruct (Nat.eqb _ _); [|discriminate]. injection EE as ->. exact R.
Qed.

Lemma accepted_absolute E T cwd name c : read_config E cwd name default_config = Ok (Some c) -> real_paths E T -> absolute_dirs T c.
Proof. intros H R x dir I J. destruct (accepted_shape E cwd name c H) as (_ & _ & S). destruct (S x dir I J) as (a & d & X). exact (R a d dir X). Qed.

Theorem load_defined E T cwd0 name c cwd cwd' c' l : read_config E cwd0 name default_config = Ok (Some c) -> real_paths E T ->
  load_dirs T cwd c = Ok (cwd', c', l) -> c' = c /\ all_groups T cwd c l.
Proof.
  intros H R L. pose proof (accepted_absolute E T cwd0 name c H R) as A. destruct (accepted_shape E cwd0 name c H) as (W & RT & _).
  apply (read_group_ok T cwd c A) in L. destruct L as [-> (ls & F & ->)]. split; [reflexivity|].
  destruct (preorder_fine c RT (wfc_pos c W)) as (N & I & P). exists (preorder c (List.length (c_groups c)) 0), ls. repeat split; try assumption; apply I.
Qed.
Theorem load_total E T cwd0 name c cwd : read_config E cwd0 name default_config = Ok (Some c) -> sane (t_env T) -> named T ->
  (exists cwd' l, load_dirs T cwd c = Ok (cwd', c, l)) \/ (load_dirs T cwd c = Fatal /\ too_deep T c).
Proof.
  intros H S N. destruct (accepted_shape E cwd0 name c H) as (W & RT & _).
  assert (P : 0 < List.length (c_groups c)) by exact (wfc_pos c W). assert (F : List.length (c_groups c) <= List.length (c_groups c) + 0) by lia.
  pose proof (read_group_total T c S N W RT (List.length (c_groups c)) 0 cwd F P) as X. unfold load_dirs.
  destruct (read_group T (List.length (c_groups c)) 0 cwd c) as [[[w2 c2] l2]| | |]; cbn in X; try (destruct X; fail).
  - subst c2. left. exists w2, l2. reflexivity.
  - right. split; [reflexivity|exact X].
Qed.
Theorem load_back E T cwd0 name c cwd cwd' c' l : read_config E cwd0 name default_config = Ok (Some c) -> real_paths E T ->
  (forall a, e_cd (t_env T) a cwd = Some cwd) -> load_dirs T cwd c = Ok (cwd', c', l) -> cwd' = cwd.
Proof. intros H R B L. exact (back T c cwd B _ _ _ _ _ (accepted_absolute E T cwd0 name c H R) L). Qed.

(** The result is determined *)
Lemma defines_unique T here dir name g p q : defines T here dir name g p -> defines T here dir name g q -> p = q.
Proof.
  intros D1 D2. apply defines_iff in D1, D2. destruct D1 as (_ & _ & ps & F & ->). destruct D2 as (_ & _ & ps' & F' & ->).
  assert (G : 0 < List.length (c_groups default_config)) by (cbn; lia).
  assert (R1 := proj2 (read_file_peer T here dir name 0 default_config default_config _ G) (ex_intro _ ps (conj F (conj eq_refl eq_refl)))).
  assert (R2 := proj2 (read_file_peer T here dir name 0 default_config default_config _ G) (ex_intro _ ps' (conj F' (conj eq_refl eq_refl)))).
  rewrite R1 in R2. apply (f_equal (fun r => match r with Ok (Some (_, Some p)) => Some p | _ => None end)) in R2. cbv beta iota in R2.
  assert (X : forall ps, app_psets (t_env T) ps (new_peer (Some name) g) = set_pc_group g (app_psets (t_env T) ps (new_peer (Some name) 0))).
  { intros l. assert (Y : forall l p, app_psets (t_env T) l (set_pc_group g p) = set_pc_group g (app_psets (t_env T) l p)).
    { induction l0 as [|s l0 IH]; intros p; [reflexivity|]. cbn [app_psets fold_left]. unfold app_psets in IH. rewrite <- IH. f_equal.
      destruct s as [? ? []|? ? []|? ? ? []|? ? []| | | |]; destruct p; reflexivity. }
    rewrite <- Y. reflexivity. }
  rewrite !X. assert (Z : forall p, set_pc_dir (Some dir) (set_pc_group g p) = set_pc_group g (set_pc_dir (Some dir) p)) by (intros []; reflexivity).
  rewrite !Z. congruence.
Qed.
