(** Proofs about the choice of implementations *)
From Verif Require Import Base BufferModel MethodModel NameModel NameSpec NameProofs AddrProofs ImplModel ImplSpec.
From Coq Require Import String.
Notation length := List.length.

Lemma beqb_refl : forall a, bytes_eqb a a = true.
Proof. intros a. now apply bytes_eqb_iff. Qed.
Lemma beqb_no : forall a b, bytes_eqb a b = false <-> a <> b.
Proof.
  intros a b. split.
  - intros E H. subst. now rewrite beqb_refl in E.
  - intros H. destruct (bytes_eqb a b) eqn:E; [|reflexivity]. now apply bytes_eqb_iff in E.
Qed.

Lemma available_runs : forall cpu i, available cpu i = true <-> runs cpu i.
Proof.
  assert (P1 : forall cpu n, negb (N.eqb (N.land cpu (N.shiftl 1 n)) 0) = true <-> N.testbit cpu n = true).
  { intros cpu n. split.
    - intros H. apply negb_true_iff, N.eqb_neq in H. destruct (N.testbit cpu n) eqn:E; [reflexivity|]. exfalso. apply H.
      apply N.bits_inj_iff. intros k. rewrite N.land_spec, N.bits_0, N.shiftl_1_l.
      destruct (N.eq_dec k n) as [->|K]; [now rewrite E|]. rewrite N.pow2_bits_false by congruence. apply andb_false_r.
    - intros H. apply negb_true_iff, N.eqb_neq. intros E.
      assert (T := f_equal (fun x => N.testbit x n) E). cbn beta in T. rewrite N.land_spec, N.bits_0, N.shiftl_1_l, N.pow2_bits_true, H in T. discriminate. }
  assert (P3 : forall cpu, N.eqb (N.land cpu (N.lor (N.lor (N.shiftl 1 24) (N.shiftl 1 41)) (N.shiftl 1 33))) (N.lor (N.lor (N.shiftl 1 24) (N.shiftl 1 41)) (N.shiftl 1 33)) = true
      <-> N.testbit cpu 24 = true /\ N.testbit cpu 33 = true /\ N.testbit cpu 41 = true).
  { intros cpu. rewrite N.eqb_eq. split.
    - intros E. repeat split; match goal with |- N.testbit cpu ?k = true => assert (T := f_equal (fun x => N.testbit x k) E) end; cbn beta in T;
        rewrite N.land_spec in T; match type of T with (_ && ?b) = _ => change b with true in T end; now rewrite andb_true_r in T.
    - intros (A & B & C). apply N.bits_inj_iff. intros k. rewrite N.land_spec, !N.lor_spec, !N.shiftl_1_l.
      destruct (N.eq_dec k 24) as [->|K1]; [now rewrite A|].
      destruct (N.eq_dec k 33) as [->|K2]; [now rewrite B|].
      destruct (N.eq_dec k 41) as [->|K3]; [now rewrite C|].
      rewrite !N.pow2_bits_false by congruence. apply andb_false_r. }
  intros cpu i. destruct i; cbn [available runs]; try (split; auto; fail).
  - exact (P1 cpu 26%N).
  - exact (P1 cpu 26%N).
  - unfold CPUID_FXSR, CPUID_SSSE3, CPUID_PCLMULQDQ, edx, ecx. rewrite P3. cbn. reflexivity.
Qed.

Section generic.
  Context {I : Type}.
  Variable nm : I -> bytes.

  Fixpoint final (l : list (bytes * impl)) (n : bytes) (y : option impl) (ss : list (bytes * bytes)) : option impl :=
    match ss with
    | [] => y
    | (n', im) :: r => if bytes_eqb n n' then final l n (find_impl l im) r else final l n y r
    end.

  Lemma config_some : forall cpu (T : table I) c name im c', config nm cpu T c name im = Some c' ->
    (exists x l i, In (x, l) T /\ nm x = name /\ find_impl l im = Some i /\ available cpu i = true).
  Proof.
    intros cpu T. induction T as [|[x l] T IH]; cbn; intros c name im c' E; [discriminate|].
    destruct c as [|y c]; [discriminate|].
    destruct (bytes_eqb (nm x) name) eqn:En.
    - apply bytes_eqb_iff in En. destruct (find_impl l im) as [i|] eqn:F; [|discriminate]. destruct (available cpu i) eqn:A; [|discriminate].
      exists x, l, i. repeat split; auto.
    - destruct (config nm cpu T c name im) as [c1|] eqn:E1; [|discriminate].
      destruct (IH _ _ _ _ E1) as (x' & l' & i & P & Q). exists x', l', i. split; [now right|exact Q].
  Qed.

  Lemma config_entries : forall cpu (T : table I) c name im c', NoDup (map (fun x => nm (fst x)) T) -> length c = length T ->
    config nm cpu T c name im = Some c' ->
    length c' = length T /\
    forall x l y, In ((x, l), y) (combine T c) -> In ((x, l), if bytes_eqb (nm x) name then find_impl l im else y) (combine T c').
  Proof.
    intros cpu T. induction T as [|[x l] T IH]; cbn; intros c name im c' ND L E; [discriminate|].
    destruct c as [|y c]; [discriminate|]. cbn in L. inversion ND as [|? ? N1 N2]; subst.
    destruct (bytes_eqb (nm x) name) eqn:En.
    - destruct (find_impl l im) as [i|] eqn:F; [|discriminate]. destruct (available cpu i) eqn:A; [|discriminate]. injection E as <-. split; [cbn; lia|].
      intros x' l' y' [Q|Q].
      + injection Q as <- <- <-. left. rewrite En, F. reflexivity.
      + right. replace (bytes_eqb (nm x') name) with false; [exact Q|]. symmetry. apply beqb_no. intros Q'.
        apply N1. apply bytes_eqb_iff in En. rewrite En, <- Q'. apply in_combine_l in Q. apply in_map_iff. exists (x', l'). split; [reflexivity|exact Q].
    - destruct (config nm cpu T c name im) as [c1|] eqn:E1; [|discriminate]. injection E as <-.
      destruct (IH c name im c1 N2 ltac:(lia) E1) as [P1 P2]. split; [cbn; lia|].
      intros x' l' y' [Q|Q].
      + injection Q as <- <- <-. left. rewrite En. reflexivity.
      + right. exact (P2 _ _ _ Q).
  Qed.

  Lemma config_none : forall cpu (T : table I) c name im, length c = length T -> NoDup (map (fun x => nm (fst x)) T) -> config nm cpu T c name im = None ->
    forall x l i, In (x, l) T -> nm x = name -> find_impl l im = Some i -> available cpu i = false.
  Proof.
    intros cpu T. induction T as [|[x l] T IH]; cbn; intros c name im L ND E x' l' i H Hn F; [contradiction|].
    destruct c as [|y c]; [discriminate|]. cbn in L. inversion ND as [|? ? N1 N2]; subst.
    destruct H as [H|H].
    - injection H as -> ->. rewrite beqb_refl, F in E. destruct (available cpu i); [discriminate|reflexivity].
    - destruct (bytes_eqb (nm x) (nm x')) eqn:En.
      + exfalso. apply bytes_eqb_iff in En. apply N1. rewrite En. apply in_map_iff. exists (x', l'). auto.
      + destruct (config nm cpu T c (nm x') im) as [c1|] eqn:E1; [discriminate|]. eapply (IH c (nm x') im); eauto; lia.
  Qed.

  Lemma configure_final : forall cpu (T : table I) ss c c', NoDup (map (fun x => nm (fst x)) T) -> length c = length T ->
    configure nm cpu T c ss = Ok c' ->
    length c' = length T /\
    (forall x l y, In ((x, l), y) (combine T c) -> In ((x, l), final l (nm x) y ss) (combine T c')) /\
    (forall n im, In (n, im) ss -> exists x l i, In (x, l) T /\ nm x = n /\ find_impl l im = Some i /\ available cpu i = true).
  Proof.
    intros cpu T ss. induction ss as [|[n im] ss IH]; cbn; intros c c' ND L E.
    - injection E as <-. repeat split; auto. intros ? ? [].
    - destruct (config nm cpu T c n im) as [c1|] eqn:E1; [|discriminate].
      destruct (config_entries _ _ _ _ _ _ ND L E1) as [L1 P1].
      destruct (IH _ _ ND L1 E) as (L2 & P2 & P3). split; [exact L2|]. split.
      + intros x l y H. specialize (P2 _ _ _ (P1 _ _ _ H)). destruct (bytes_eqb (nm x) n); exact P2.
      + intros n' im' [Q|Q]; [|exact (P3 _ _ Q)]. injection Q as <- <-. exact (config_some _ _ _ _ _ _ E1).
  Qed.

  Lemma configure_total : forall cpu (T : table I) ss c, NoDup (map (fun x => nm (fst x)) T) -> length c = length T ->
    (exists c', configure nm cpu T c ss = Ok c') \/
    (configure nm cpu T c ss = Fatal /\ exists n im, In (n, im) ss /\ forall x l i, In (x, l) T -> nm x = n -> find_impl l im = Some i -> available cpu i = false).
  Proof.
    intros cpu T ss. induction ss as [|[n im] ss IH]; cbn; intros c ND L; [left; eauto|].
    destruct (config nm cpu T c n im) as [c1|] eqn:E1.
    - destruct (config_entries _ _ _ _ _ _ ND L E1) as [L1 _].
      destruct (IH c1 ND L1) as [H|(H & n' & im' & P & Q)]; [now left|right]. split; [exact H|]. exists n', im'. auto.
    - right. split; [reflexivity|]. exists n, im. split; [now left|]. exact (config_none _ _ _ _ _ L ND E1).
  Qed.

  Lemma get_impl_entry : forall (T : table I) c x l y info, NoDup (map (fun x => nm (fst x)) T) -> In ((x, l), y) (combine T c) -> nm x = nm info ->
    get_impl nm T c info = y.
  Proof.
    intros T. induction T as [|[x0 l0] T IH]; cbn; intros c x l y info ND H E; [contradiction|].
    destruct c as [|y0 c]; [contradiction|]. inversion ND as [|? ? N1 N2]; subst. destruct H as [H|H].
    - injection H as -> -> ->. now rewrite E, beqb_refl.
    - replace (bytes_eqb (nm x0) (nm info)) with false; [exact (IH c x l y info N2 H E)|].
      symmetry. apply beqb_no. intros Q. apply N1. rewrite Q, <- E. apply in_combine_l in H. apply in_map_iff. exists (x, l). auto.
  Qed.

  Lemma by_name_spec : forall (T : table I) c name info, NoDup (map (fun x => nm (fst x)) T) ->
    by_name nm T c name = Some info -> nm info = name /\ exists l i, In ((info, l), Some i) (combine T c).
  Proof.
    intros T. induction T as [|[x0 l0] T IH]; cbn; intros c name info ND H; [discriminate|].
    destruct c as [|y0 c]; [discriminate|]. inversion ND as [|? ? N1 N2]; subst. destruct (bytes_eqb (nm x0) name) eqn:E; cbn in H.
    - destruct y0 as [i|]; [|discriminate]. injection H as <-. apply bytes_eqb_iff in E. split; [exact E|]. exists l0, i. now left.
    - destruct (IH c name info N2 H) as (P & l & i & Q). split; [exact P|]. exists l, i. now right.
  Qed.
  Lemma by_name_entry : forall (T : table I) c x l y, NoDup (map (fun x => nm (fst x)) T) -> In ((x, l), y) (combine T c) ->
    by_name nm T c (nm x) = match y with Some _ => Some x | None => None end.
  Proof.
    intros T. induction T as [|[x0 l0] T IH]; cbn; intros c x l y ND H; [contradiction|].
    destruct c as [|y0 c]; [contradiction|]. inversion ND as [|? ? N1 N2]; subst. destruct H as [H|H].
    - injection H as -> -> ->. now rewrite beqb_refl.
    - replace (bytes_eqb (nm x0) (nm x)) with false; [exact (IH c x l y N2 H)|].
      symmetry. apply beqb_no. intros Q. apply N1. rewrite Q. apply in_combine_l in H. apply in_map_iff. exists (x, l). auto.
  Qed.

  Lemma init_entries : forall cpu (T : table I) x l, In (x, l) T -> In ((x, l), first_available cpu l) (combine T (init cpu T)).
  Proof.
    intros cpu T. induction T as [|[x0 l0] T IH]; cbn; intros x l H; [contradiction|]. destruct H as [H|H].
    - injection H as -> ->. now left.
    - right. exact (IH x l H).
  Qed.

  Lemma final_last : forall l n y ss, final l n y ss = y /\ silent n ss \/
    exists s1 im s2, ss = s1 ++ (n, im) :: s2 /\ silent n s2 /\ final l n y ss = find_impl l im.
  Proof.
    intros l n y ss. revert y. induction ss as [|[n' im] ss IH]; cbn; intros y.
    - left. split; [reflexivity|]. intros v H. exact H.
    - destruct (bytes_eqb n n') eqn:E.
      + apply bytes_eqb_iff in E. subst n'. right. destruct (IH (find_impl l im)) as [[P Q]|(s1 & im' & s2 & P & Q & R)].
        * exists [], im, ss. repeat split; auto.
        * exists ((n, im) :: s1), im', s2. subst ss. repeat split; auto.
      + apply beqb_no in E. destruct (IH y) as [[P Q]|(s1 & im' & s2 & P & Q & R)].
        * left. split; [exact P|]. intros v [H|H]; [congruence|exact (Q v H)].
        * right. exists ((n', im) :: s1), im', s2. subst ss. repeat split; auto.
  Qed.
End generic.

(** * The tables *)
Definition entry (B : build) (mac : bool) (n : bytes) (l : list (bytes * impl)) : Prop :=
  (forall im i, find_impl l im = Some i <-> compiled B i = true /\ is_mac i = mac /\ n = str (algorithm i) /\ im = str (variant i)) /\
  (forall cpu i, first_available cpu l = Some i <->
     usable B cpu i /\ is_mac i = mac /\ n = str (algorithm i) /\
     (fast i = true \/ forall j, algorithm j = algorithm i -> fast j = true -> ~ usable B cpu j)).

Lemma usable_iff : forall B cpu i, usable B cpu i <-> compiled B i = true /\ available cpu i = true.
Proof. intros B cpu i. unfold usable. now rewrite available_runs. Qed.

Ltac inames := match goal with |- context [bytes_eqb ?a ?b] => let E := fresh "E" in destruct (bytes_eqb a b) eqn:E; [apply bytes_eqb_iff in E|apply beqb_no in E] end.

Lemma impl_inj : forall i j, str (algorithm i) = str (algorithm j) -> str (variant i) = str (variant j) -> i = j.
Proof. intros i j A V. apply str_inj in A, V. destruct i, j; try reflexivity; discriminate. Qed.

(** the list of all variants of an algorithm, those compiled in front *)
Lemma entry_one : forall B mac n im0 i0, compiled B i0 = true -> (forall j, str (algorithm j) = str (algorithm i0) -> j = i0) -> fast i0 = false ->
  is_mac i0 = mac -> n = str (algorithm i0) -> im0 = str (variant i0) -> (forall cpu, available cpu i0 = true) -> entry B mac n [(im0, i0)].
Proof.
  intros B mac n im0 i0 C U F M N V A. split.
  - intros im i. cbn. inames; split; intros H.
    + injection H as <-. repeat split; auto. congruence.
    + destruct H as (_ & _ & H & _). f_equal. symmetry. apply U. congruence.
    + discriminate.
    + exfalso. destruct H as (_ & _ & H & H'). apply E. rewrite V, H'. f_equal. f_equal. symmetry. apply U. congruence.
  - intros cpu i. cbn. rewrite A. split.
    + intros H. injection H as <-. repeat split; auto.
      * apply available_runs, A.
      * right. intros j J K. assert (j = i0) by (apply U; now rewrite J). congruence.
    + intros (_ & _ & H & _). f_equal. symmetry. apply U. congruence.
Qed.

Lemma entry_two : forall B mac n b1 b2 i1 i2, compiled B i1 = b1 -> compiled B i2 = b2 ->
  algorithm i2 = algorithm i1 -> variant i1 <> variant i2 ->
  (forall j, algorithm j = algorithm i1 -> j = i1 \/ j = i2) -> fast i1 = true -> fast i2 = false ->
  is_mac i1 = mac -> is_mac i2 = mac -> n = str (algorithm i1) -> (forall cpu, available cpu i2 = true) ->
  entry B mac n (opt b1 (str (variant i1), i1) ++ opt b2 (str (variant i2), i2)).
Proof.
  intros B mac n b1 b2 i1 i2 C1 C2 A12 V12 U F1 F2 M1 M2 N A2.
  assert (AL : forall i, n = str (algorithm i) -> i = i1 \/ i = i2).
  { intros i H. apply U. apply str_inj. congruence. }
  split.
  - intros im i.
    assert (G : find_impl (opt b1 (str (variant i1), i1) ++ opt b2 (str (variant i2), i2)) im = Some i <->
                (i = i1 /\ b1 = true /\ im = str (variant i1)) \/ (i = i2 /\ b2 = true /\ im = str (variant i2))).
    { assert (VS : str (variant i1) <> str (variant i2)) by (intros H; apply str_inj in H; contradiction).
      destruct b1, b2; cbn; repeat inames; split; intros H; try discriminate H;
        try (injection H as <-); try (left; repeat split; auto; congruence); try (right; repeat split; auto; congruence);
        destruct H as [(P & Q & R)|(P & Q & R)]; congruence. }
    rewrite G. split.
    + intros [(-> & P & Q)|(-> & P & Q)]; repeat split; auto; try congruence.
    + intros (P & Q & R & S). destruct (AL i R) as [-> | ->]; [left|right]; repeat split; auto; congruence.
  - intros cpu i.
    assert (G : first_available cpu (opt b1 (str (variant i1), i1) ++ opt b2 (str (variant i2), i2)) = Some i <->
                (i = i1 /\ b1 = true /\ available cpu i1 = true) \/ (i = i2 /\ b2 = true /\ ~ (b1 = true /\ available cpu i1 = true))).
    { destruct b1, b2; cbn; rewrite ?A2; destruct (available cpu i1); split; intros H; try discriminate H;
        try (injection H as <-); try (left; repeat split; auto; fail);
        try (right; repeat split; auto; intros [K1 K2]; discriminate);
        destruct H as [(P & Q & R)|(P & Q & R)]; try discriminate; try congruence; exfalso; apply R; auto. }
    rewrite G. split.
    + intros [(-> & P & Q)|(-> & P & Q)].
      * repeat split; auto; try (apply available_runs; exact Q); try congruence.
      * repeat split; auto; try (apply available_runs, A2); try congruence. right. intros j J K. rewrite usable_iff. intros [X Y].
        destruct (U j) as [->| ->]; [congruence| |congruence]. apply Q. split; congruence.
    + intros ((P & P') & Q & R & S). apply available_runs in P'. destruct (AL i R) as [-> | ->].
      * left. repeat split; auto. congruence.
      * right. repeat split; auto; [congruence|]. intros [X Y]. destruct S as [S|S]; [congruence|].
        apply (S i1); [congruence|exact F1|]. apply usable_iff. split; congruence.
Qed.

Lemma in_opt : forall A (b : bool) (x y : A), In y (opt b x) -> b = true /\ y = x.
Proof. intros A [|] x y H; cbn in H; [|contradiction]. destruct H as [H|[]]; auto. Qed.

Lemma ciphers_entry : forall B x l, In (x, l) (ciphers B) -> entry B false (ci_name x) l.
Proof.
  intros B x l H. unfold ciphers in H. rewrite !in_app_iff in H.
  destruct H as [H|[H|[H|H]]]; apply in_opt in H; destruct H as [Hb H]; injection H as -> ->.
  - apply entry_one; auto. intros j J. apply str_inj in J. destruct j; try discriminate; reflexivity.
  - apply entry_one; auto. intros j J. apply str_inj in J. destruct j; try discriminate; reflexivity.
  - apply (entry_two B false _ (b_salsa20_xmm B) (b_salsa20_nacl B) Salsa20Xmm Salsa20Nacl); auto; cbn; rewrite ?Hb; auto; try discriminate.
    intros j J. destruct j; try discriminate; auto.
  - apply (entry_two B false _ (b_salsa2012_xmm B) (b_salsa2012_nacl B) Salsa2012Xmm Salsa2012Nacl); auto; cbn; rewrite ?Hb; auto; try discriminate.
    intros j J. destruct j; try discriminate; auto.
Qed.
Lemma macs_entry : forall B x l, In (x, l) (macs B) -> entry B true (mac_name x) l.
Proof.
  intros B x l H. unfold macs in H. rewrite !in_app_iff in H.
  destruct H as [H|H]; apply in_opt in H; destruct H as [Hb H]; injection H as -> ->.
  - apply (entry_two B true _ (b_ghash_pclmulqdq B) true GhashPclmulqdq GhashBuiltin); auto; cbn; rewrite ?Hb; auto; try discriminate.
    intros j J. destruct j; try discriminate; auto.
  - apply entry_one; auto. intros j J. apply str_inj in J. destruct j; try discriminate; reflexivity.
Qed.

Lemma ciphers_names : forall B, NoDup (map (fun x => ci_name (fst x)) (ciphers B)).
Proof.
  intros [a b c d e f g h i j k]. unfold ciphers. cbn [b_aes b_null b_salsa20 b_salsa2012].
  destruct a, b, c, f; cbn; repeat constructor; cbn; intuition discriminate.
Qed.
Lemma macs_names : forall B, NoDup (map (fun x => mac_name (fst x)) (macs B)).
Proof.
  intros [a b c d e f g h i j k]. unfold macs. cbn [b_ghash b_uhash].
  destruct i, k; cbn; repeat constructor; cbn; intuition discriminate.
Qed.

(** ** Both kinds of tables *)
Section choice.
  Context {I : Type}.
  Variable nm : I -> bytes.
  Variable B : build.
  Variable mac : bool.
  Variable T : table I.
  Hypothesis ND : NoDup (map (fun x => nm (fst x)) T).
  Hypothesis EN : forall x l, In (x, l) T -> entry B mac (nm x) l.
  Hypothesis ALL : forall i, compiled B i = true -> is_mac i = mac -> exists x l, In (x, l) T /\ nm x = str (algorithm i).

  Lemma choice_total : forall cpu ss, (exists c, choose nm cpu T ss = Ok c) \/ choose nm cpu T ss = Fatal.
  Proof.
    intros cpu ss. destruct (configure_total nm cpu T ss (init cpu T) ND) as [H|[H _]]; [apply map_length|now left|now right].
  Qed.

  Lemma choice_refused : forall cpu ss, choose nm cpu T ss = Fatal <->
    exists x, In x ss /\ ~ exists i, asks x i /\ usable B cpu i /\ is_mac i = mac.
  Proof.
    intros cpu ss. split.
    - intros H. destruct (configure_total nm cpu T ss (init cpu T) ND) as [[c E]|(_ & n & im & P & Q)]; [apply map_length|unfold choose in H; congruence|].
      exists (n, im). split; [exact P|]. intros (i & A & U & M). unfold asks in A. injection A as -> ->. apply usable_iff in U. destruct U as [U1 U2].
      destruct (ALL i U1 M) as (x & l & Hin & Hn). assert (F : available cpu i = false); [|congruence].
      apply (Q x l i Hin Hn). apply (EN x l Hin). auto.
    - intros ([n im] & P & Q). destruct (choice_total cpu ss) as [[c E]|E]; [|exact E]. exfalso. apply Q.
      destruct (configure_final nm cpu T ss (init cpu T) c ND (map_length _ _) E) as (_ & _ & F).
      destruct (F n im P) as (x & l & i & Hin & Hn & Fi & A). apply (EN x l Hin) in Fi. destruct Fi as (C & M & N & V).
      exists i. split; [unfold asks; congruence|]. split; [apply usable_iff; auto|exact M].
  Qed.

  Lemma choice_entry : forall cpu ss c x l, choose nm cpu T ss = Ok c -> In (x, l) T ->
    In ((x, l), final l (nm x) (first_available cpu l) ss) (combine T c).
  Proof.
    intros cpu ss c x l E H. destruct (configure_final nm cpu T ss (init cpu T) c ND (map_length _ _) E) as (_ & F & _).
    apply F. now apply init_entries.
  Qed.

  Lemma choice_wanted : forall cpu ss c x, choose nm cpu T ss = Ok c -> In x (map fst T) ->
    forall i, get_impl nm T c x = Some i <-> nm x = str (algorithm i) /\ is_mac i = mac /\ wanted B cpu ss i.
  Proof.
    intros cpu ss c x E Hx i. apply in_map_iff in Hx. destruct Hx as ([x' l] & Q & H). cbn in Q. subst x'.
    pose proof (choice_entry cpu ss c x l E H) as G. rewrite (get_impl_entry nm T c x l _ x ND G eq_refl).
    destruct (EN x l H) as [E1 E2].
    destruct (configure_final nm cpu T ss (init cpu T) c ND (map_length _ _) E) as (_ & _ & F).
    destruct (final_last l (nm x) (first_available cpu l) ss) as [[P Q]|(s1 & im & s2 & P & Q & R)].
    - rewrite P, E2. split.
      + intros (U & M & N & W). repeat split; auto. right. rewrite <- N. auto.
      + intros (N & M & [(l1 & y & l2 & S & A & _)|(S & U & W)]).
        * exfalso. unfold asks in A. subst y. rewrite <- N in S. apply (Q (str (variant i))). rewrite S. apply in_or_app. right. now left.
        * auto.
    - rewrite R, E1. split.
      + intros (C & M & N & V). repeat split; auto. left. exists s1, (nm x, im), s2. repeat split; auto; [unfold asks; congruence|now rewrite <- N].
      + intros (N & M & [(l1 & y & l2 & S & A & Z)|(S & _)]).
        * unfold asks in A. subst y. rewrite <- N in S, Z.
          assert (G1 : s1 = l1 /\ im = str (variant i)).
          { rewrite P in S. clear - S Q Z. revert l1 S. induction s1 as [|a s1 IH]; intros [|b l1] S; cbn in S.
            - injection S as <- _. auto.
            - exfalso. injection S as <- S. apply (Q (str (variant i))). rewrite S. apply in_or_app. right. now left.
            - exfalso. injection S as -> S. apply (Z im). rewrite <- S. apply in_or_app. right. now left.
            - injection S as <- S. destruct (IH l1 S) as [-> ?]. auto. }
          destruct G1 as [_ ->].
          destruct (F (nm x) (str (variant i))) as (x' & l' & j & Hin & Hn & Fi & A).
          { rewrite P. apply in_or_app. right. now left. }
          apply (EN x' l' Hin) in Fi. destruct Fi as (C & M' & N' & V').
          assert (j = i) by (apply impl_inj; congruence). subst j. auto.
        * exfalso. apply (S im). rewrite <- N, P. apply in_or_app. right. now left.
  Qed.

  Lemma choice_usable : forall cpu ss c x i, choose nm cpu T ss = Ok c -> In x (map fst T) -> get_impl nm T c x = Some i ->
    usable B cpu i /\ is_mac i = mac /\ nm x = str (algorithm i).
  Proof.
    intros cpu ss c x i E Hx G. pose proof (proj1 (choice_wanted cpu ss c x E Hx i) G) as (N & M & W).
    split; [|auto]. destruct W as [(l1 & y & l2 & S & A & _)|(_ & U & _)]; [|exact U].
    destruct (configure_final nm cpu T ss (init cpu T) c ND (map_length _ _) E) as (_ & _ & F).
    unfold asks in A. subst y. destruct (F (str (algorithm i)) (str (variant i))) as (x' & l' & j & Hin & Hn & Fi & A).
    { rewrite S. apply in_or_app. right. now left. }
    apply (EN x' l' Hin) in Fi. destruct Fi as (C & M' & N' & V'). assert (j = i) by (apply impl_inj; congruence). subst j. apply usable_iff. auto.
  Qed.

  Lemma choice_by_name : forall cpu ss c n, choose nm cpu T ss = Ok c ->
    (exists x, by_name nm T c n = Some x) <-> exists i, usable B cpu i /\ is_mac i = mac /\ n = str (algorithm i).
  Proof.
    intros cpu ss c n E. split.
    - intros [x H]. destruct (by_name_spec nm T c n x ND H) as (N & l & i & P).
      pose proof (get_impl_entry nm T c x l _ x ND P eq_refl) as G. apply in_combine_l in P.
      destruct (choice_usable cpu ss c x i E) as (U & M & A); [apply in_map_iff; exists (x, l); auto|exact G|]. exists i. repeat split; try apply U; try congruence.
    - intros (i & U & M & N). apply usable_iff in U. destruct U as [U1 U2]. destruct (ALL i U1 M) as (x & l & Hin & Hn).
      pose proof (choice_entry cpu ss c x l E Hin) as G. exists x. rewrite N, <- Hn. rewrite (by_name_entry nm T c x l _ ND G).
      destruct (final l (nm x) (first_available cpu l) ss) as [j|] eqn:F; [reflexivity|]. exfalso.
      destruct (EN x l Hin) as [E1 E2].
      destruct (final_last l (nm x) (first_available cpu l) ss) as [[P Q]|(s1 & im & s2 & P & Q & R)].
      + rewrite P in F. assert (X : exists j, In j (map snd l) /\ available cpu j = true).
        { exists i. split; [|exact U2]. assert (Fi : find_impl l (str (variant i)) = Some i) by (apply E1; auto). clear - Fi. induction l as [|[a b] l IH]; cbn in *; [discriminate|].
          destruct (bytes_eqb a (str (variant i))); [injection Fi as ->; now left|right; auto]. }
        clear - F X. induction l as [|[a b] l IH]; cbn in *; [destruct X as (j & [] & _)|]. destruct (available cpu b) eqn:Ab; [discriminate|]. apply IH; [exact F|].
        destruct X as (j & [-> |K] & L); [congruence|]. exists j. auto.
      + destruct (configure_final nm cpu T ss (init cpu T) c ND (map_length _ _) E) as (_ & _ & F').
        destruct (F' (nm x) im) as (x' & l' & j & Hin' & Hn' & Fi & A); [rewrite P; apply in_or_app; right; now left|].
        apply (EN x' l' Hin') in Fi. destruct Fi as (C & M' & N' & V'). rewrite R in F.
        assert (find_impl l im = Some j) by (apply E1; repeat split; auto; congruence). congruence.
  Qed.
End choice.

Lemma ciphers_all : forall B i, compiled B i = true -> is_mac i = false -> exists x l, In (x, l) (ciphers B) /\ ci_name x = str (algorithm i).
Proof.
  intros B i C M. unfold ciphers. destruct i; try discriminate; cbn in C; try (apply andb_true_iff in C; destruct C as [C _]); rewrite C;
    eexists; eexists; (split; [rewrite !in_app_iff; cbn [opt In]; first [left; left; reflexivity | right; left; left; reflexivity | right; right; left; left; reflexivity | right; right; right; left; reflexivity]|reflexivity]).
Qed.
Lemma macs_all : forall B i, compiled B i = true -> is_mac i = true -> exists x l, In (x, l) (macs B) /\ mac_name x = str (algorithm i).
Proof.
  intros B i C M. unfold macs. destruct i; try discriminate; cbn in C; try (apply andb_true_iff in C; destruct C as [C _]); rewrite C;
    eexists; eexists; (split; [rewrite !in_app_iff; cbn [opt In]; first [left; left; reflexivity | right; left; reflexivity]|reflexivity]).
Qed.
