(** Proofs about peer directories: files and directories. *)
From Verif Require Import Base BufferModel LexModel LexSpec ConfigModel ConfigSpec ConfigProofs ConfigProofs2 ConfigProofs3 ConfigProofs5 ConfigProofs6
  ConfigProofs8 ConfigProofs9 ConfigProofs10 ConfigProofs11 DirModel DirSpec.
From Coq Require Import String.
Local Open Scope N_scope.

Lemma app_psets_dir E ps : forall p d, app_psets E ps (set_pc_dir d p) = set_pc_dir d (app_psets E ps p).
Proof.
  induction ps as [|s ps IH]; intros p d; [reflexivity|]. cbn [app_psets fold_left]. unfold app_psets in IH. rewrite <- IH. f_equal.
  destruct s as [? ? []|? ? []|? ? ? []|? ? []| | | |]; destruct p; reflexivity.
Qed.
Lemma set_dir_set p a b : set_pc_dir a (set_pc_dir b p) = set_pc_dir a p.
Proof. destruct p; reflexivity. Qed.
Lemma set_dir_same p d : pc_dir p = d -> set_pc_dir d p = p.
Proof. intros <-. destruct p; reflexivity. Qed.
Lemma key_dir p d : pc_key (set_pc_dir d p) = pc_key p.
Proof. destruct p; reflexivity. Qed.
Lemma dir_dir p d : pc_dir (set_pc_dir d p) = d.
Proof. destruct p; reflexivity. Qed.

Section Files.
Variable T : tree.
Let E := t_env T.

Definition start (dir name : bytes) : peer_conf := set_pc_dir (Some dir) (new_peer (Some name) 0).
Lemma start_psets dir name g ps : app_psets E ps (set_pc_group g (start dir name)) = set_pc_dir (Some dir) (app_psets E ps (new_peer (Some name) g)).
Proof. unfold start. rewrite <- app_psets_dir. reflexivity. Qed.

Lemma read_file_peer here dir name g c c' q' : (g < List.length (c_groups c))%nat ->
  (read_file E max_depth here name g (Some (start dir name)) c = Ok (Some (c', q')) <->
   exists ps, file_says T here name ps /\ c' = c /\ q' = Some (set_pc_dir (Some dir) (app_psets E ps (new_peer (Some name) g)))).
Proof.
  intros G. destruct (readers E max_depth) as [PR _]. rewrite (PR here name g (start dir name) c c' q' G). split.
  - intros (d' & d & inner & ps & X & FI & PM & -> & ->). injection X as <-. exists ps. split; [exists d, inner; split; assumption|].
    split; [reflexivity|]. rewrite start_psets. reflexivity.
  - intros (ps & (d & inner & FI & PM) & -> & ->). exists 9%nat, d, inner, ps. repeat (split; [reflexivity || assumption|]). rewrite start_psets. reflexivity.
Qed.

Lemma defines_iff here dir name g p : defines T here dir name g p <->
  counts T here name /\ pc_key p <> None /\ exists ps, file_says T here name ps /\ p = set_pc_dir (Some dir) (app_psets E ps (new_peer (Some name) g)).
Proof.
  unfold defines. split.
  - intros (C & D & ps & F & P). apply peer_is_iff in P. destruct P as [P N]. split; [exact C|]. rewrite key_dir in N. split; [exact N|].
    exists ps. split; [exact F|]. fold E in P. rewrite <- P, set_dir_set, set_dir_same; [reflexivity|exact D].
  - intros (C & N & ps & F & ->). split; [exact C|]. split; [apply dir_dir|]. exists ps. split; [exact F|]. apply peer_is_iff.
    rewrite set_dir_set. rewrite key_dir in N. split.
    + apply set_dir_same. apply app_psets_peer.
    + rewrite key_dir. exact N.
Qed.

Lemma is_read_ok here name : name <> [] -> exists b, is_read T here name = Ok b /\ (b = true <-> counts T here name).
Proof.
  destruct name as [|x name]; [congruence|]. intros _. unfold is_read, counts.
  destruct (N.eqb_spec x 46) as [->|N1].
  - exists false. split; [reflexivity|]. split; [discriminate|]. intros (A & _). destruct (A name eq_refl).
  - destruct (N.eqb_spec (last (x :: name) 0) 126) as [L|N2].
    + exists false. split; [reflexivity|]. split; [discriminate|]. intros (_ & A & _). destruct (A (removelast (x :: name))).
      rewrite <- L. apply app_removelast_last. discriminate.
    + assert (A : (forall r, x :: name <> 46 :: r) /\ (forall r, x :: name <> r ++ [126])).
      { split; [intros r X; injection X; congruence|]. intros r X. rewrite X, last_last in N2. congruence. }
      destruct (t_stat T here (x :: name)) as [[|]|]; [exists true|exists false|exists false]; (split; [reflexivity|]); split; try discriminate; try reflexivity;
        [intros _; split; [apply A|split; [apply A|reflexivity]]| |]; intros (_ & _ & X); discriminate.
Qed.

Lemma read_peer_ok here dir name g c c' l : (g < List.length (c_groups c))%nat -> counts T here name -> read_peer T here dir name g c = Ok (c', l) ->
  c' = c /\ ((exists p, l = [p] /\ defines T here dir name g p) \/ (l = [] /\ forall p, ~ defines T here dir name g p)).
Proof.
  intros G C H. unfold read_peer in H. fold (start dir name) in H. fold E in H.
  destruct (read_file E max_depth here name g (Some (start dir name)) c) as [[[c1 [q|]]|]| | |] eqn:R; cbn [bind] in H; try discriminate.
  - apply read_file_peer in R; [|exact G]. destruct R as (ps & F & -> & Q). injection Q as ->.
    destruct (pc_key _) as [k|] eqn:K; injection H as <- <-; (split; [reflexivity|]).
    + left. eexists. split; [reflexivity|]. apply defines_iff. split; [exact C|]. split; [congruence|]. exists ps. split; [exact F|reflexivity].
    + right. split; [reflexivity|]. intros p D. apply defines_iff in D. destruct D as (_ & N & ps' & F' & ->).
      assert (R1 := proj2 (read_file_peer here dir name g c c _ G) (ex_intro _ ps (conj F (conj eq_refl eq_refl)))).
      assert (R2 := proj2 (read_file_peer here dir name g c c _ G) (ex_intro _ ps' (conj F' (conj eq_refl eq_refl)))).
      rewrite R1 in R2. apply (f_equal (fun r => match r with Ok (Some (_, Some p)) => pc_key p | _ => None end)) in R2. cbv beta iota in R2. congruence.
  - injection H as <- <-. split; [reflexivity|]. right. split; [reflexivity|]. intros p D. apply defines_iff in D. destruct D as (_ & _ & ps & F & _).
    assert (R1 := proj2 (read_file_peer here dir name g c c _ G) (ex_intro _ ps (conj F (conj eq_refl eq_refl)))). congruence.
Qed.

Lemma read_names_ok here dir g c : (g < List.length (c_groups c))%nat -> forall names c' l, read_names T here dir g names c = Ok (c', l) ->
  c' = c /\ each_file T here dir g names l.
Proof.
  intros G. induction names as [|name r IH]; intros c' l H; cbn [read_names] in H.
  - injection H as <- <-. split; [reflexivity|constructor].
  - assert (N : name <> []) by (intros ->; discriminate H).
    destruct (is_read_ok here name N) as (b & B & C). rewrite B in H. cbn [bind] in H. destruct b.
    + destruct (read_peer T here dir name g c) as [[c1 l1]| | |] eqn:R; try discriminate H. cbn [bind fst snd] in H.
      apply read_peer_ok in R; [|exact G|apply C; reflexivity]. destruct R as [-> R].
      destruct (read_names T here dir g r c) as [[c2 l2]| | |] eqn:R2; try discriminate H. cbn [bind fst snd] in H. injection H as <- <-.
      destruct (IH c2 l2 eq_refl) as [-> EF]. split; [reflexivity|].
      destruct R as [(p & -> & D)|[-> D]]; [apply ef_peer; assumption|apply ef_none; assumption].
    + cbn [bind fst snd] in H. destruct (read_names T here dir g r c) as [[c2 l2]| | |] eqn:R2; try discriminate H. cbn [bind fst snd] in H. injection H as <- <-.
      destruct (IH c2 l2 eq_refl) as [-> EF]. split; [reflexivity|]. apply ef_none; [|exact EF]. intros p (X & _). apply C in X. discriminate X.
Qed.

Lemma read_dirs_ok g c cwd0 : (g < List.length (c_groups c))%nat -> forall dirs cwd cwd' c' l, (forall dir, In dir dirs -> absolute T dir) ->
  read_dirs T cwd g dirs c = Ok (cwd', c', l) ->
  c' = c /\ exists ls, Forall2 (of_dir T cwd0 g) dirs ls /\ l = List.concat ls.
Proof.
  intros G. induction dirs as [|dir r IH]; intros cwd cwd' c' l A H; cbn [read_dirs] in H.
  - injection H as <- <- <-. split; [reflexivity|]. exists []. split; [constructor|reflexivity].
  - assert (O : e_cd (t_env T) cwd dir = e_cd (t_env T) cwd0 dir) by (apply A; left; reflexivity).
    assert (A' : forall d, In d r -> absolute T d) by (intros d I; apply A; right; exact I).
    fold E in O, H. destruct (e_cd E cwd dir) as [here|] eqn:CD.
    + unfold read_peer_dir in H. destruct (t_open T here) eqn:OP.
      * destruct (read_names T here dir g (t_names T here) c) as [[c1 l1]| | |] eqn:R; try discriminate H. cbn [bind fst snd] in H.
        apply read_names_ok in R; [|exact G]. destruct R as [-> R].
        destruct (read_dirs T here g r c) as [[[w2 c2] l2]| | |] eqn:R2; try discriminate H. cbn [bind fst snd] in H. injection H as <- <- <-.
        destruct (IH _ _ _ _ A' R2) as [-> (ls & F & ->)]. split; [reflexivity|]. exists (l1 :: ls). split; [|reflexivity].
        constructor; [|exact F]. unfold of_dir. fold E. rewrite <- O, OP. exact R.
      * cbn [bind fst snd] in H.
        destruct (read_dirs T here g r c) as [[[w2 c2] l2]| | |] eqn:R2; try discriminate H. cbn [bind fst snd] in H. injection H as <- <- <-.
        destruct (IH _ _ _ _ A' R2) as [-> (ls & F & ->)]. split; [reflexivity|]. exists ([] :: ls). split; [|reflexivity].
        constructor; [|exact F]. unfold of_dir. fold E. rewrite <- O, OP. reflexivity.
    + destruct (IH _ _ _ _ A' H) as [-> (ls & F & ->)]. split; [reflexivity|]. exists ([] :: ls). split; [|reflexivity].
      constructor; [|exact F]. unfold of_dir. fold E. rewrite <- O. reflexivity.
Qed.
End Files.
