(** Lemmas about the groups, the methods and the keys *)
From Verif Require Import Base BaseLemmas BufferModel MethodModel AddrModel LexModel KexModel KexSpec KexProofs HexModel HexSpec HexProofs ConfigModel ConfigSpec ConfigProofs6
  OptionsModel PrivModel PrivSpec PrivProofs BootModel BootSpec.
From Verif Require NameModel NameSpec NameProofs.
From Coq Require Import String.
Notation length := List.length.

(** * The tree of groups *)

Lemma child_from_spec gs : forall k i j, In j (child_from k i gs) <-> exists g, (k <= j)%nat /\ nth_error gs (j - k) = Some g /\ gc_parent g = Some i.
Proof.
  induction gs as [|g gs IH]; intros k i j; cbn [child_from].
  - split; [intros []|intros (g & _ & N & _); destruct (j - k)%nat; discriminate N].
  - rewrite in_app_iff, IH. split.
    + intros [(g' & L & N & P)|I].
      * exists g'. split; [lia|]. replace (j - k)%nat with (S (j - S k)) by lia. split; assumption.
      * unfold is_child in I. destruct (gc_parent g) as [p|] eqn:P; [|destruct I]. destruct (Nat.eqb_spec p i) as [->|]; [|destruct I]. destruct I as [<-|[]].
        exists g. rewrite Nat.sub_diag. repeat split; [lia|exact P].
    + intros (g' & L & N & P). destruct (Nat.eq_dec j k) as [->|D].
      * right. rewrite Nat.sub_diag in N. injection N as ->. unfold is_child. rewrite P, Nat.eqb_refl. left. reflexivity.
      * left. exists g'. split; [lia|]. replace (j - k)%nat with (S (j - S k)) in N by lia. split; assumption.
Qed.
Lemma children_spec gs i j : In j (children gs i) <-> exists g, nth_error gs j = Some g /\ gc_parent g = Some i.
Proof.
  unfold children. rewrite child_from_spec. rewrite Nat.sub_0_r. split; intros (g & K); exists g; [exact (proj2 K)|split; [lia|exact K]].
Qed.

Definition parents_ok (gs : list group_conf) : Prop :=
  forall i x, nth_error gs i = Some x -> match gc_parent x with None => i = O | Some p => (p < i)%nat end.
Lemma nth_parent gs j g p : parents_ok gs -> nth_error gs j = Some g -> gc_parent g = Some p -> (p < j)%nat /\ exists g', nth_error gs p = Some g'.
Proof.
  intros W N P. pose proof (W j g N) as X. rewrite P in X. split; [exact X|].
  destruct (nth_error gs p) as [g'|] eqn:Q; [exists g'; reflexivity|]. apply nth_error_None in Q. assert (j < length gs)%nat by (apply nth_error_Some; congruence). lia.
Qed.

Lemma in_tree_trans a b c : NameSpec.in_tree a b -> NameSpec.in_tree b c -> NameSpec.in_tree a c.
Proof. intros I J. induction I as [|ms ch x g C T IH]; [exact J|]. eapply NameSpec.T_child; [exact C|exact (IH J)]. Qed.

Lemma tree_reach gs (W : parents_ok gs) n : forall k j g, (j < k)%nat -> (j < n)%nat -> nth_error gs j = Some g ->
  exists d, (d <= j)%nat /\ NameSpec.in_tree (tree n gs 0) (tree (n - d) gs j).
Proof.
  induction k as [|k IH]; intros j g Lk Ln N; [lia|]. pose proof (W j g N) as P. destruct (gc_parent g) as [p|] eqn:Q.
  - destruct (nth_parent gs j g p W N Q) as (L & g' & N'). destruct (IH p g' ltac:(lia) ltac:(lia) N') as (d & Ld & T).
    exists (S d). split; [lia|]. eapply in_tree_trans; [exact T|]. replace (n - d)%nat with (S (n - S d)) by lia. cbn [tree].
    eapply NameSpec.T_child; [|constructor]. apply in_map, children_spec. exists g. split; assumption.
  - subst j. exists 0%nat. split; [lia|]. rewrite Nat.sub_0_r. constructor.
Qed.
Lemma tree_used_in n : forall gs i s, NameSpec.used (tree n gs i) s -> exists g, In g gs /\ In s (gc_methods g).
Proof.
  induction n as [|n IH]; intros gs i s U; cbn [tree] in U; apply NameProofs.used_group in U.
  - destruct U as [[]|(c & [] & _)].
  - destruct U as [I|(c & C & U)].
    + unfold at_group in I. destruct (nth_error gs i) as [g|] eqn:N; [|destruct I]. exists g. split; [exact (nth_error_In _ _ N)|exact I].
    + apply in_map_iff in C. destruct C as (j & <- & _). exact (IH _ _ _ U).
Qed.
Lemma root_used c s : parents_ok (c_groups c) -> NameSpec.used (root_of c) s <-> named c s.
Proof.
  intros W. unfold root_of, named. split; [apply tree_used_in|]. intros (g & I & M). apply In_nth_error in I. destruct I as (j & N).
  assert (L : (j < length (c_groups c))%nat) by (apply nth_error_Some; congruence).
  destruct (tree_reach _ W (length (c_groups c)) (S j) j g ltac:(lia) L N) as (d & Ld & T).
  exists (tree (length (c_groups c) - d) (c_groups c) j). split; [exact T|]. replace (length (c_groups c) - d)%nat with (S (length (c_groups c) - S d)) by lia.
  cbn [tree NameModel.g_methods]. unfold at_group. rewrite N. exact M.
Qed.

Lemma dirs_reach gs (W : parents_ok gs) n : forall k j g, (j < k)%nat -> (j < n)%nat -> nth_error gs j = Some g ->
  exists d, (d <= j)%nat /\ (has_peer_dirs (n - d) gs j = true -> has_peer_dirs n gs 0 = true).
Proof.
  induction k as [|k IH]; intros j g Lk Ln N; [lia|]. pose proof (W j g N) as P. destruct (gc_parent g) as [p|] eqn:Q.
  - destruct (nth_parent gs j g p W N Q) as (L & g' & N'). destruct (IH p g' ltac:(lia) ltac:(lia) N') as (d & Ld & T).
    exists (S d). split; [lia|]. intros X. apply T. replace (n - d)%nat with (S (n - S d)) by lia. cbn [has_peer_dirs].
    destruct (at_group gs p gc_dirs); [|reflexivity]. apply existsb_exists. exists j. split; [apply children_spec; exists g; split; assumption|exact X].
  - subst j. exists 0%nat. split; [lia|]. rewrite Nat.sub_0_r. exact (fun X => X).
Qed.
Lemma dirs_in n : forall gs i, has_peer_dirs n gs i = true -> exists g, In g gs /\ gc_dirs g <> [].
Proof.
  induction n as [|n IH]; intros gs i X; cbn [has_peer_dirs] in X; [discriminate X|]. unfold at_group in X. destruct (nth_error gs i) as [g|] eqn:N.
  - destruct (gc_dirs g) as [|d r] eqn:D.
    + apply existsb_exists in X. destruct X as (j & _ & X). exact (IH _ _ X).
    + exists g. split; [exact (nth_error_In _ _ N)|rewrite D; discriminate].
  - apply existsb_exists in X. destruct X as (j & _ & X). exact (IH _ _ X).
Qed.
Lemma peer_dirs_spec c : parents_ok (c_groups c) -> peer_dirs c = true <-> with_dirs c.
Proof.
  intros W. unfold peer_dirs, with_dirs. split; [apply dirs_in|]. intros (g & I & D). apply In_nth_error in I. destruct I as (j & N).
  assert (L : (j < length (c_groups c))%nat) by (apply nth_error_Some; congruence).
  destruct (dirs_reach _ W (length (c_groups c)) (S j) j g ltac:(lia) L N) as (d & Ld & T). apply T.
  replace (length (c_groups c) - d)%nat with (S (length (c_groups c) - S d)) by lia. cbn [has_peer_dirs]. unfold at_group. rewrite N. destruct (gc_dirs g); [contradiction|reflexivity].
Qed.

(** * The checks *)

Lemma verifies_spec H c : verifies H c = true <-> with_verify H c.
Proof.
  unfold verifies, with_verify. destruct (h_dynamic H), (c_verify c); cbn; split; intros X; try discriminate X; try (split; [reflexivity|discriminate]); try reflexivity; destruct X as [X Y]; try discriminate X; contradiction.
Qed.
Lemma not_true b : b <> true <-> b = false.
Proof. destruct b; split; intros X; try reflexivity; try discriminate; contradiction. Qed.

Lemma check_base_spec H c : parents_ok (c_groups c) -> check_base H c = true <-> base_ok H c.
Proof.
  intros W. unfold check_base, base_ok, single_iface, offloads. rewrite Bool.andb_true_iff.
  assert (A : (if h_android H then match c_mode c with
       | Tun => match c_mode c with Tap => true | _ => if peer_dirs c then false else if verifies H c then false else Nat.eqb (length (c_peers c)) 1 end
       | _ => false end else true) = true <->
     (h_android H = true -> c_mode c = Tun /\ ~ with_dirs c /\ ~ with_verify H c /\ exists q, c_peers c = [q])).
  { destruct (h_android H); [|split; [intros _ X; discriminate X|reflexivity]].
    destruct (c_mode c); try (split; [discriminate|intros X; destruct (X eq_refl) as [X1 _]; discriminate X1]).
    rewrite <- (peer_dirs_spec c W), <- (verifies_spec H c). destruct (peer_dirs c).
    - split; [discriminate|]. intros X. destruct (X eq_refl) as (_ & Y & _). contradiction.
    - destruct (verifies H c).
      + split; [discriminate|]. intros X. destruct (X eq_refl) as (_ & _ & Y & _). contradiction.
      + split.
        * intros X _. split; [reflexivity|]. split; [discriminate|]. split; [discriminate|]. destruct (c_peers c) as [|q [|]]; try discriminate X. exists q. reflexivity.
        * intros X. destruct (X eq_refl) as (_ & _ & _ & q & ->). reflexivity. }
  assert (B : (if h_l2tp H && c_offload c then match c_mode c with Multitap => negb (c_persist c) | _ => false end else true) = true <->
     (h_l2tp H = true -> c_offload c = true -> c_mode c = Multitap /\ c_persist c = false)).
  { destruct (h_l2tp H); [|split; [intros _ X; discriminate X|reflexivity]]. destruct (c_offload c); cbn [andb]; [|split; [intros _ _ X; discriminate X|reflexivity]].
    destruct (c_mode c), (c_persist c); cbn; split; intros X; try discriminate X; try reflexivity; try (intros _ _; split; reflexivity); destruct (X eq_refl eq_refl) as [X1 X2]; try discriminate X1; discriminate X2. }
  rewrite A, B. reflexivity.
Qed.

Lemma created H s : host_ok H -> NameSpec.c_string s /\ s <> [] -> exists r, NameModel.create_by_name (h_names H) (h_methods H) s = Ok r /\
  forall p m, r = Some (p, m) <-> supported H s p m.
Proof. intros O [C N]. exact (NameProofs.create_by_name_total (h_names H) (h_methods H) s (ho_names H O) C N). Qed.

Lemma configured H g (P : bytes -> Prop) : host_ok H -> (forall s, NameSpec.used g s <-> P s) -> (forall s, P s -> NameSpec.c_string s /\ s <> []) ->
  ((exists s, P s /\ forall p m, ~ supported H s p m) /\ NameModel.configure_methods (h_names H) (h_methods H) g = Fatal) \/
  exists t, NameModel.configure_methods (h_names H) (h_methods H) g = Ok t /\
    (forall s, P s -> exists p m, supported H s p m /\ NameModel.get_by_name t s = Ok (Some (s, p, m))) /\
    (forall s, ~ P s -> NameModel.get_by_name t s = Ok None).
Proof.
  intros O U N. unfold NameModel.configure_methods. pose proof (NameProofs.collect_spec g ([], 0%nat)) as X.
  destruct (NameModel.collect g ([], 0%nat)) as [l n]. destruct X as [[ND LEN] X]; [split; [constructor|reflexivity]|]. cbn [fst snd] in *.
  assert (I : forall s, In s l <-> P s). { intros s. rewrite X, U. split; [intros [[]|K]; exact K|intros K; right; exact K]. }
  destruct (NameProofs.fill_spec (h_names H) (h_methods H) l (n + 1) (ho_names H O)) as [[(s & Is & C) F]|(A & t & F & G & G')].
  - intros s Is. apply N, I, Is.
  - lia.
  - left. split; [|exact F]. exists s. split; [apply I; exact Is|]. intros p m K. destruct (created H s O (N s (proj1 (I s) Is))) as (r & C' & R). rewrite C in C'. injection C' as <-. apply R in K. discriminate K.
  - right. exists t. split; [exact F|]. split.
    + intros s Ps. destruct (G s (proj2 (I s) Ps)) as (p & m & G1 & C). exists p, m. split; [|exact G1]. destruct (created H s O (N s Ps)) as (r & C' & R). rewrite C in C'. injection C' as <-. apply R. reflexivity.
    + intros s Ps. apply G'. intros K. apply Ps, I, K.
Qed.

(** * Keys *)

Lemma print_text desc d : length d = 32%nat -> wf_bytes d -> print_hexdump desc d = Ok (desc ++ HexProofs.text d ++ [10%N]).
Proof.
  intros L W. unfold print_hexdump. rewrite (hexdump_spec d L). cbn [bind]. rewrite map_app. cbn [map]. rewrite cstr_text; [reflexivity|].
  intros c I. exact (proj2 (text_chars d c W I)).
Qed.
Lemma text_digits d : wf_bytes d -> digits_of (HexProofs.text d) d.
Proof. intros W. split; [exact (text_spells d W)|]. intros c I. exact (proj1 (text_chars d c W I)). Qed.
Lemma all_set_map k : all_set (map Some k) = Ok k.
Proof. induction k as [|b k IH]; [reflexivity|]. cbn [map all_set]. rewrite IH. reflexivity. Qed.
Lemma digit_small c v : digit_is c v -> (v < 16)%N.
Proof. unfold digit_is. lia. Qed.
Lemma spells_wf s k : spells s k -> wf_bytes k.
Proof.
  intros P. induction P as [|a b x y s k A B P IH]; constructor; [|exact IH]. apply digit_small in A. apply digit_small in B. unfold is_byte. lia.
Qed.
Lemma digits_unique s1 s2 k : digits_of s1 k -> digits_of s2 k -> s1 = s2.
Proof.
  intros [A1 B1] [A2 B2]. destruct (proj1 (spells_lower s1 k A1 s2) A2) as [E _].
  assert (L : forall s, (forall c, In c s -> ~ is_capital c) -> map lower s = s).
  { induction s as [|c s IH]; intros X; [reflexivity|]. cbn [map]. rewrite IH by (intros y I; apply X; right; exact I). f_equal. unfold lower.
    destruct ((65 <=? c) && (c <=? 90))%N eqn:Q; [|reflexivity]. apply Bool.andb_true_iff in Q. destruct Q as [Q1 Q2]. apply N.leb_le in Q1. apply N.leb_le in Q2.
    exfalso. apply (X c (or_introl eq_refl)). split; assumption. }
  rewrite (L _ B1), (L _ B2) in E. symmetry. exact E.
Qed.

Lemma init_key_spec H c : host_ok H ->
  (exists k kp, secret_is c k /\ init_key H c = Ok kp /\ kp_public kp = public_key H k /\ (le_val (kp_secret kp) * 8 = le_val k)%N) \/
  ((forall k, ~ secret_is c k) /\ init_key H c = Fatal).
Proof.
  intros O. unfold init_key, secret_is. destruct (c_secret c) as [s|].
  - destruct (read_key_iff s) as [(k & L & P & ->)|[N ->]]; cbn [bind].
    + rewrite all_set_map. cbn [bind]. destruct (init_iff (h_kex H) k (conj L (spells_wf s k P))) as [(M & kp & E & P1 & P2)|(M & E)].
      * left. exists k, kp. split; [exists s; repeat split; assumption|]. split; [exact E|]. split; [exact P2|exact P1].
      * right. split; [|exact E]. intros k' (s' & S1 & P' & _ & M'). injection S1 as <-. rewrite (spells_fun _ _ P' _ P) in M'. contradiction.
    + right. split; [|reflexivity]. intros k (s' & S1 & P & L & _). injection S1 as <-. exact (N k L P).
  - right. split; [|reflexivity]. intros k (s & S1 & _). discriminate S1.
Qed.
Lemma secret_unique c k1 k2 : secret_is c k1 -> secret_is c k2 -> k1 = k2.
Proof. intros (s & A & P & _) (s' & A' & P' & _). rewrite A in A'. injection A' as <-. exact (spells_fun _ _ P _ P'). Qed.

Lemma public_fine H k : host_ok H -> length (public_key H k) = 32%nat /\ wf_bytes (public_key H k).
Proof. intros O. split; [apply (l_store_length _ (ho_laws H O))|apply (ho_store H O)]. Qed.
Lemma public_of_key H k : word256 k -> public_of (h_kex H) k = public_key H k.
Proof. intros W. unfold public_of, scalarmult, public_key. rewrite smul_bits_small by exact (word_small k W). reflexivity. Qed.
