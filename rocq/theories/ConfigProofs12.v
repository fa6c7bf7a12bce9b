(** What holds of every configuration that is accepted. *)
From Verif Require Import Base BufferModel MethodModel AddrModel LexModel LexSpec HexSpec ConfigModel ConfigSpec ConfigProofs ConfigProofs2
  ConfigProofs3 ConfigProofs5 ConfigProofs6 ConfigProofs8 ConfigProofs9.
From Verif Require NameModel.
From Coq Require Import String Permutation.
Local Open Scope N_scope.

Theorem config_meaning E cwd name c :
  read_config E cwd name default_config = Ok (Some c) <->
  exists dir body es, main_is E cwd name dir (text body ++ [LEof]) /\ means E 9 dir 0 1 body es /\ describes E es c.
Proof.
  assert (W : wfc default_config). { split; [reflexivity|]. cbn. intros g I. lia. }
  rewrite (read_config_is E cwd name default_config c W). cbn [default_config c_groups List.length].
  split; intros (dir & body & es & M & B & A); exists dir, body, es; (split; [exact M|]); (split; [exact B|]);
    apply (sum_iff E es c (means_scoped E _ _ _ _ _ _ B Nat.lt_0_1)); exact A.
Qed.

(** * The statements in effect *)

Definition fine (E : env) (e : effect) : Prop :=
  match e with ESet _ (SUser _) | ESet _ (SOsGroup _) => True | ESet _ s => setting_fine E s | ELimit _ n => n <= 2 ^ 31 - 1 | EPeer _ _ ps => Forall psetting_fine ps | _ => True end.
Lemma peer_means_fine E d cwd body ps : peer_means E d cwd body ps -> Forall psetting_fine ps.
Proof. induction 1; [constructor|constructor; assumption|apply Forall_app; split; assumption]. Qed.
Lemma means_fine E d cwd g n body es : means E d cwd g n body es -> Forall (fine E) es.
Proof.
  induction 1 as [ | d cwd n s body es F M IH | d cwd g n name inner ps body es PM M IH | d cwd g n name inner ei body es MI IHI M IH
    | d cwd g n k body es L M IH | d cwd g n s body es M IH | d cwd g n h sy s body es M IH | d cwd g n sy s body es D M IH
    | d cwd g n f name dir inner ps body es FI PM M IH | d cwd g n dir abs body es CD M IH | d cwd g n dir body es CD M IH
    | d cwd g n f dir inner ei body es FI MI IHI M IH ].
  - constructor.
  - constructor; [|exact IH]. destruct s; exact F || exact Logic.I.
  - constructor; [exact (peer_means_fine _ _ _ _ _ PM)|exact IH].
  - constructor; [exact Logic.I|]. apply Forall_app. split; assumption.
  - constructor; assumption.
  - constructor; [exact Logic.I|exact IH].
  - constructor; [exact Logic.I|exact IH].
  - constructor; [exact Logic.I|exact IH].
  - constructor; [exact (peer_means_fine _ _ _ _ _ PM)|exact IH].
  - constructor; [exact Logic.I|exact IH].
  - exact IH.
  - apply Forall_app. split; assumption.
Qed.

Lemma last_in {A B} (P : B -> Prop) (f : A -> option B) d l : P d -> (forall x v, In x l -> f x = Some v -> P v) -> P (last_of f d l).
Proof.
  intros D. induction l as [|x l IH] using rev_ind; intros H; [exact D|]. rewrite last_snoc. destruct (f x) as [v|] eqn:F.
  - apply (H x); [apply in_or_app; right; left; reflexivity|exact F].
  - apply IH. intros y w I. apply H. apply in_or_app. left. exact I.
Qed.
Lemma all_in {A B} (f : A -> option B) l v : In v (all_of f l) <-> exists x, In x l /\ f x = Some v.
Proof.
  unfold all_of. rewrite in_flat_map. split; intros (x & I & F); exists x; (split; [exact I|]).
  - destruct (f x); [destruct F as [->|[]]; reflexivity|destruct F].
  - rewrite F. left. reflexivity.
Qed.
Lemma in_settings es s : In s (settings es) <-> exists dir, In (ESet dir s) es.
Proof.
  unfold settings. rewrite all_in. split.
  - intros (e & I & F). destruct e; try discriminate. injection F as ->. exists dir. exact I.
  - intros [dir I]. exists (ESet dir s). split; [exact I|reflexivity].
Qed.
Lemma distinct_nodup l : NoDup (distinct l).
Proof.
  induction l as [|x l IH]; [constructor|]. cbn. constructor; [|apply NoDup_filter; exact IH]. rewrite filter_In. intros [_ X].
  rewrite (proj2 (word_eqb x x) eq_refl) in X. discriminate.
Qed.
Lemma positions_in {A} (P : A -> bool) l i : In i (positions P l) <-> exists x, nth_error l i = Some x /\ P x = true.
Proof.
  induction l as [|y l IH] using rev_ind.
  - cbn. split; [intros []|]. intros (x & N & _). destruct i; discriminate.
  - rewrite positions_snoc, in_app_iff, IH. split.
    + intros [(x & N & PX)|I].
      * exists x. split; [|exact PX]. rewrite nth_error_app1; [exact N|]. apply nth_error_Some. rewrite N. discriminate.
      * destruct (P y) eqn:PY; [|destruct I]. destruct I as [<-|[]]. exists y. split; [|exact PY]. rewrite nth_error_app2, Nat.sub_diag by lia. reflexivity.
    + intros (x & N & PX). destruct (Nat.lt_ge_cases i (List.length l)) as [L|L].
      * left. exists x. rewrite nth_error_app1 in N by exact L. split; assumption.
      * right. rewrite nth_error_app2 in N by exact L. destruct (i - List.length l)%nat as [|k] eqn:K; [|destruct k; discriminate N].
        injection N as ->. rewrite PX. left. lia.
Qed.
Lemma default_fits fits says l :
  match default_bind fits says l with
  | Some i => exists b, nth_error l i = Some b /\ fits b = true
  | None => forall b, In b l -> fits b = false
  end.
Proof.
  unfold default_bind. destruct (rev (positions (fun b => fits b && says b) l)) as [|i r] eqn:R.
  - destruct (positions fits l) as [|i r'] eqn:Q; cbn [hd_error].
    + intros b I. destruct (fits b) eqn:F; [|reflexivity]. apply In_nth_error in I. destruct I as [i N].
      assert (X : In i (positions fits l)) by (apply positions_in; exists b; split; assumption). rewrite Q in X. destruct X.
    + apply positions_in. rewrite Q. left. reflexivity.
  - assert (X : In i (positions (fun b => fits b && says b) l)) by (apply in_rev; rewrite R; left; reflexivity).
    apply positions_in in X. destruct X as (b & N & P). apply Bool.andb_true_iff in P. destruct P as [P _]. exists b. split; assumption.
Qed.
Lemma heads_parent es : forall n i name p, scoped (S n) es -> nth_error (heads es) i = Some (name, Some p) -> (p < S n + i)%nat.
Proof.
  induction es as [|e es IH]; intros n i name p S N; [destruct i; discriminate|]. destruct S as [B S]. unfold heads in N. cbn [flat_map] in N.
  destruct e; try (cbn in S; rewrite Nat.add_0_r in S; exact (IH n i name p S N)).
  cbn [List.app] in N. destruct i as [|i].
  - injection N as -> ->. cbn in B. lia.
  - cbn in S. replace (n + 1)%nat with (Datatypes.S n) in S by lia. pose proof (IH (Datatypes.S n) i name p S N). lia.
Qed.
Lemma heads_some es i name o : nth_error (heads es) i = Some (name, o) -> exists p, o = Some p.
Proof.
  intros N. apply nth_error_In in N. unfold heads in N. apply in_flat_map in N. destruct N as (e & _ & I). destruct e; try (destruct I; fail).
  destruct I as [I|[]]. injection I as _ <-. eexists. reflexivity.
Qed.

Lemma described_in_range E es c : scoped 1 es -> Forall (fine E) es -> describes E es c -> in_range E c.
Proof.
  intros S F D. rewrite Forall_forall in F.
  assert (FS : forall s, In s (settings es) -> match s with SUser _ | SOsGroup _ => True | _ => setting_fine E s end).
  { intros s I. apply in_settings in I. destruct I as [dir I]. specialize (F _ I). destruct s; exact F. }
  assert (PI : forall q, In q (c_peers c) -> exists name g ps, In (EPeer name g ps) es /\ peer_is E (name, g, ps) q).
  { intros q I. pose proof (d_peers _ _ _ D) as P. apply (Forall2_flip) in P || idtac. revert P I. generalize (c_peers c) as l. intros l P.
    remember (peers es) as pl eqn:PL. assert (SUB : incl pl (peers es)) by (rewrite PL; apply incl_refl). clear PL.
    induction P as [|x y pl l PX P IH]; [intros []|]. intros [->|I].
    - destruct x as [[name g] ps]. exists name, g, ps. split; [|exact PX]. specialize (SUB _ (or_introl eq_refl)). unfold peers in SUB. apply all_in in SUB.
      destruct SUB as (e & IE & FE). destruct e; try discriminate. injection FE as -> -> ->. exact IE.
    - apply IH; [intros z Z; apply SUB; right; exact Z|exact I]. }
  assert (GI : forall x, In x (c_groups c) -> exists i h, x = group_is es i h).
  { intros x I. apply In_nth_error in I. destruct I as [i N]. rewrite (d_groups _ _ _ D i) in N. destruct (nth_error (all_heads es) i) as [h|]; [|discriminate].
    injection N as <-. exists i, h. reflexivity. }
  assert (LEN : List.length (c_groups c) = Datatypes.S (groups es)).
  { pose proof (d_groups _ _ _ D) as G. rewrite <- all_heads_length.
    destruct (Nat.lt_trichotomy (List.length (c_groups c)) (List.length (all_heads es))) as [L|[L|L]]; [|exact L|].
    - specialize (G (List.length (c_groups c))). rewrite (proj2 (nth_error_None _ _) (le_n _)) in G.
      apply nth_error_Some in L. destruct (nth_error (all_heads es) _); [discriminate|congruence].
    - specialize (G (List.length (all_heads es))). rewrite (proj2 (nth_error_None (all_heads es) _) (le_n _)) in G. apply nth_error_Some in L. destruct (L G). }
  constructor.
  - rewrite (d_mtu _ _ _ D). apply (last_in (fun n => 576 <= n <= 65535)); [lia|]. intros s v I V. destruct s; try discriminate. injection V as <-. exact (FS _ I).
  - rewrite (d_mark _ _ _ D). apply (last_in (fun n => n < 2 ^ 32)); [reflexivity|]. intros s v I V. destruct s; try discriminate. injection V as <-. apply N.mod_lt. discriminate.
  - rewrite (d_ifname _ _ _ D). apply (last_in (fun o => forall i, o = Some i -> ifname_fine i)); [discriminate|]. intros s v I V i W.
    destruct s; try discriminate. injection V as <-. injection W as <-. exact (FS _ I).
  - rewrite (d_offload _ _ _ D). intros X. apply Bool.andb_true_iff in X. apply X.
  - intros q I. destruct (PI q I) as (name & g & ps & IE & PQ). destruct PQ as (_ & _ & _ & _ & _ & _ & -> & _).
    apply (last_in (fun n => n = 0 \/ 576 <= n <= 65535)); [left; reflexivity|]. intros s v IS V. destruct s; try discriminate. injection V as <-.
    right. pose proof (F _ IE) as FP. cbn in FP. rewrite Forall_forall in FP. exact (FP _ IS).
  - intros q i I. destruct (PI q I) as (name & g & ps & IE & PQ). destruct PQ as (_ & _ & _ & _ & _ & -> & _).
    apply (last_in (fun o => o = Some i -> ifname_fine i)); [discriminate|]. intros s v IS V W. destruct s; try discriminate. injection V as <-. injection W as <-.
    pose proof (F _ IE) as FP. cbn in FP. rewrite Forall_forall in FP. exact (FP _ IS).
  - intros q I. destruct (PI q I) as (name & g & ps & IE & PQ). destruct PQ as (_ & _ & _ & _ & _ & _ & _ & s & k & _ & (L & _ & P) & K0).
    exists k. split; [exact K0|]. split; assumption.
  - exact (d_keys _ _ _ D).
  - intros q I. destruct (PI q I) as (name & g & ps & IE & PQ). destruct PQ as (_ & -> & _). rewrite LEN.
    pose proof (scoped_below es 1 S) as B. rewrite Forall_forall in B. exact (B _ IE).
  - intros i x N. rewrite (d_groups _ _ _ D i) in N. destruct (nth_error (all_heads es) i) as [h|] eqn:H; [|discriminate]. injection N as <-. cbn [group_is gc_parent].
    destruct i as [|i]; [injection H as <-; reflexivity|]. cbn in H. destruct h as [name o]. destruct (heads_some _ _ _ _ H) as [p ->]. cbn.
    exact (heads_parent es 0 i name p S H).
  - intros x n I. destruct (GI x I) as (i & h & ->). cbn [group_is gc_limit]. apply (last_in (fun o => o = Some n -> n <= 2 ^ 31 - 1)); [discriminate|].
    intros e v IE V W. destruct e; try discriminate. destruct (Nat.eqb g i); [|discriminate]. injection V as <-. injection W as <-. exact (F _ IE).
  - intros x I. destruct (GI x I) as (i & h & ->). apply distinct_nodup.
  - rewrite (d_default4 _ _ _ D), (d_binds _ _ _ D), rev_involutive. pose proof (default_fits fits4 ba_def4 (binds E (settings es))) as X.
    destruct (default_bind _ _ _); [exact X|]. intros b I. apply X. apply in_rev. exact I.
  - rewrite (d_default6 _ _ _ D), (d_binds _ _ _ D), rev_involutive. pose proof (default_fits fits6 ba_def6 (binds E (settings es))) as X.
    destruct (default_bind _ _ _); [exact X|]. intros b I. apply X. apply in_rev. exact I.
Qed.
Theorem config_ranges E cwd name c : read_config E cwd name default_config = Ok (Some c) -> in_range E c.
Proof.
  intros R. apply config_meaning in R. destruct R as (dir & body & es & _ & M & D).
  exact (described_in_range E es c (means_scoped E _ _ _ _ _ _ M Nat.lt_0_1) (means_fine E _ _ _ _ _ _ M) D).
Qed.
