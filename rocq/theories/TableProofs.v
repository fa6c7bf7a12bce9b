(** Proofs about the address table *)
From Verif Require Import Base BaseLemmas BufferModel MethodModel AddrModel AddrSpec AddrProofs TableModel TableSpec.
From Coq Require Import Permutation.

Definition hashable (a : saddr) : Prop := match a with AInet _ _ | AInet6 _ _ _ _ => True | _ => False end.

Lemma bind_ok : forall A B (m : res A) (f : A -> res B) y, (do x <- m; f x) = Ok y -> exists x, m = Ok x /\ f x = Ok y.
Proof. intros A B m f y H. destruct m; cbn in H; try discriminate. eexists. split; [reflexivity | exact H]. Qed.

Lemma nth_upd : forall A (l : list A) n f m d, (n < length l)%nat -> nth m (upd_nth n f l) d = if Nat.eqb m n then f (nth m l d) else nth m l d.
Proof.
  intros A l. induction l as [|x l IH]; intros n f m d H; cbn [length] in H; [lia|]. destruct n, m; cbn [upd_nth nth Nat.eqb]; try reflexivity.
  apply IH. lia.
Qed.
Lemma upd_length : forall A (l : list A) n f, length (upd_nth n f l) = length l.
Proof. intros A l. induction l as [|x l IH]; intros n f; destruct n; cbn [upd_nth length]; try reflexivity. rewrite IH. reflexivity. Qed.

Lemma deref_in : forall w pid a, NoDup (map fst (t_peers w)) -> deref w pid = Ok a <-> In (pid, a) (t_peers w).
Proof.
  intros w pid a. unfold deref. generalize (t_peers w). intros l. induction l as [|[q b] l IH]; cbn [find map fst]; intros Hn; [split; [discriminate | intros []]|].
  inversion Hn as [|? ? Hq Hl]; subst. destruct (N.eqb_spec q pid) as [->|Hne]; cbn [snd].
  - split; [intros H; injection H as ->; left; reflexivity|]. intros [H|H]; [injection H as ->; reflexivity|]. exfalso. apply Hq. apply in_map_iff. exists (pid, a). split; [reflexivity | exact H].
  - rewrite (IH Hl). split; [intros H; right; exact H|]. intros [H|H]; [injection H as -> ->; contradiction | exact H].
Qed.
Lemma bucket_lt : forall w a i, bucket w a = Ok i -> (i < length (t_buckets w))%nat.
Proof.
  intros w a i H. unfold bucket in H. apply bind_ok in H. destruct H as (h & _ & H). destruct (t_buckets w) as [|x l] eqn:E; [discriminate|].
  injection H as <-. pose proof (N.mod_lt (hash_final h) (N.of_nat (length (x :: l)))) as X. cbn [length] in *. lia.
Qed.
Lemma bucket_ok : forall w a, hashable a -> t_buckets w <> [] -> exists i, bucket w a = Ok i.
Proof.
  intros w a Ha Hb. unfold bucket. assert (X : exists h, address_hash (t_seed w) a = Ok h) by (apply hash_defined; exact Ha).
  destruct X as [h ->]. cbn [bind]. destruct (t_buckets w); [contradiction|]. eexists. reflexivity.
Qed.
Lemma bucket_eq : forall w a b, address_equal a b = true -> bucket w a = bucket w b.
Proof. intros w a b H. unfold bucket. rewrite (equal_hash a b (t_seed w) H). reflexivity. Qed.
(** the bucket depends on the seed and the number of buckets only *)
Lemma bucket_same : forall w w' a, t_seed w' = t_seed w -> length (t_buckets w') = length (t_buckets w) -> bucket w' a = bucket w a.
Proof.
  intros w w' a E1 E2. unfold bucket. rewrite E1, E2. destruct (t_buckets w), (t_buckets w'); cbn [length] in E2; try discriminate; reflexivity.
Qed.
Lemma deref_same : forall w w' pid, t_peers w' = t_peers w -> deref w' pid = deref w pid.
Proof. intros w w' pid E. unfold deref. rewrite E. reflexivity. Qed.

(** The table holds exactly the peers [S], in the right buckets *)
Record holds (w : table) (S : list N) : Prop := mk_holds {
  ho_size : t_buckets w <> [];
  ho_ids : NoDup (map fst (t_peers w));
  ho_nodup : NoDup S;
  ho_used : t_used w = length S;
  ho_load : (t_used w <= 2 * length (t_buckets w))%nat;
  ho_in : forall i pid, In pid (nth i (t_buckets w) []) <-> In pid S /\ exists a, deref w pid = Ok a /\ bucket w a = Ok i;
  ho_addr : forall pid, In pid S -> exists a, deref w pid = Ok a /\ hashable a;
  ho_once : forall i, NoDup (nth i (t_buckets w) [])
}.

Lemma holds_perm : forall w S S', holds w S -> Permutation S S' -> holds w S'.
Proof.
  intros w S S' [H1 H2 H3 H4 H5 H6 H7 H8] Hp. constructor; try assumption.
  - eapply Permutation_NoDup; eassumption.
  - rewrite H4. apply Permutation_length. exact Hp.
  - intros i pid. rewrite H6. split; intros [X Y]; (split; [|exact Y]); [eapply Permutation_in; [exact Hp | exact X] | eapply Permutation_in; [apply Permutation_sym; exact Hp | exact X]].
  - intros pid Hin. apply H7. eapply Permutation_in; [apply Permutation_sym; exact Hp | exact Hin].
Qed.

Lemma nodup_snoc : forall (l : list N) x, NoDup l -> ~ In x l -> NoDup (l ++ [x]).
Proof.
  intros l x Hl Hx. apply (Permutation_NoDup (l := x :: l)); [apply Permutation_cons_append | constructor; assumption].
Qed.

(** Inserting without growing *)
Lemma insert_one : forall grow w S pid a, holds w S -> deref w pid = Ok a -> hashable a -> ~ In pid S -> (t_used w < 2 * length (t_buckets w))%nat ->
  exists w', insert_with grow pid w = Ok w' /\ holds w' (pid :: S) /\ t_peers w' = t_peers w /\ length (t_buckets w') = length (t_buckets w).
Proof.
  intros grow w S pid a [H1 H2 H3 H4 H5 H6 H7 H8] Hd Ha Hn Hl. unfold insert_with. rewrite Hd. cbn [bind].
  replace (has_address a) with true by (destruct a; try contradiction; reflexivity). cbn [negb t_buckets t_used].
  replace (Nat.ltb _ _) with false by (symmetry; apply Nat.ltb_ge; lia).
  set (w1 := mk_table (t_peers w) (t_buckets w) (t_seed w) (Datatypes.S (t_used w))).
  destruct (bucket_ok w1 a Ha H1) as [b Hb]. rewrite Hb. cbn [bind]. eexists. split; [reflexivity|].
  assert (Hlt : (b < length (t_buckets w))%nat) by (apply (bucket_lt w1 a b); exact Hb).
  split; [|split; [reflexivity | apply upd_length]]. constructor; cbn [t_buckets set_buckets t_peers t_used w1].
  - intros E. apply (f_equal (@length _)) in E. rewrite upd_length in E. destruct (t_buckets w); [contradiction | discriminate].
  - exact H2.
  - constructor; assumption.
  - cbn [length]. rewrite H4. reflexivity.
  - rewrite upd_length. lia.
  - intros i q. rewrite nth_upd by exact Hlt.
    assert (Bk : forall x, bucket (set_buckets (upd_nth b (fun l => l ++ [pid]) (t_buckets w)) w1) x = bucket w x) by (intros x; apply bucket_same; [reflexivity | apply upd_length]).
    assert (Hb' : bucket w a = Ok b) by (rewrite <- Hb; apply bucket_same; reflexivity).
    setoid_rewrite Bk. change (deref (set_buckets (upd_nth b (fun l => l ++ [pid]) (t_buckets w)) w1)) with (deref w).
    destruct (Nat.eqb_spec i b) as [->|Hne].
    + rewrite in_app_iff, H6. cbn [In]. split.
      * intros [[X Y] | [<- | []]]; [split; [right; exact X | exact Y]|]. split; [left; reflexivity|]. exists a. split; assumption.
      * intros [[<- | X] Y]; [right; left; reflexivity | left; split; assumption].
    + rewrite H6. cbn [In]. split; [intros [X Y]; split; [right; exact X | exact Y]|]. intros [[<- | X] Y]; [|split; assumption].
      exfalso. destruct Y as (a' & Y1 & Y2). rewrite Hd in Y1. injection Y1 as <-. rewrite Hb' in Y2. injection Y2 as ->. contradiction.
  - intros q [<- | Hq]; [exists a; split; assumption | exact (H7 q Hq)].
  - intros i. rewrite nth_upd by exact Hlt. destruct (Nat.eqb_spec i b) as [->|Hne]; [|apply H8]. apply nodup_snoc; [apply H8|]. rewrite H6. tauto.
Qed.

(** The peers with an address *)
Definition addressed (w : table) : list N := map fst (filter (fun x => has_address (snd x)) (t_peers w)).
Definition families (w : table) : Prop := forall pid a, In (pid, a) (t_peers w) -> a = AUnspec \/ hashable a.
Definition tinv (w : table) : Prop := holds w (addressed w) /\ families w.

Lemma addressed_in : forall w pid, NoDup (map fst (t_peers w)) -> In pid (addressed w) <-> exists a, deref w pid = Ok a /\ has_address a = true.
Proof.
  intros w pid Hn. unfold addressed. rewrite in_map_iff. split.
  - intros ([q a] & <- & Hin). apply filter_In in Hin. exists a. split; [apply deref_in; [exact Hn | apply Hin] | apply Hin].
  - intros (a & Hd & Ha). exists (pid, a). split; [reflexivity|]. apply filter_In. split; [apply deref_in; assumption | exact Ha].
Qed.
Lemma addressed_nodup : forall w, NoDup (map fst (t_peers w)) -> NoDup (addressed w).
Proof.
  intros w. unfold addressed. generalize (t_peers w). intros l. induction l as [|[q a] l IH]; cbn [map filter]; intros Hn; [constructor|].
  inversion Hn as [|? ? Hq Hl]; subst. cbn [snd]. destruct (has_address a); [|exact (IH Hl)]. cbn [map fst]. constructor; [|exact (IH Hl)].
  intros X. apply Hq. apply in_map_iff in X. destruct X as (x & <- & Hx). apply filter_In in Hx. apply in_map. apply Hx.
Qed.

Lemma hashable_has : forall a, a = AUnspec \/ hashable a -> has_address a = true <-> hashable a.
Proof. intros a [-> | H]; [split; [discriminate | contradiction] | destruct a; try contradiction; split; trivial]. Qed.

(** Growing gives a table with all peers that have an address *)
Lemma resize_ok : forall seed w, NoDup (map fst (t_peers w)) -> families w -> t_buckets w <> [] ->
  (length (addressed w) <= 4 * length (t_buckets w))%nat ->
  exists w', resize seed w = Ok w' /\ holds w' (addressed w') /\ t_peers w' = t_peers w.
Proof.
  intros seed w Hn Hf Hb Hl. unfold resize.
  set (w0 := mk_table (t_peers w) (repeat [] (2 * length (t_buckets w))) seed 0).
  assert (L0 : length (t_buckets w0) = (2 * length (t_buckets w))%nat) by (cbn [t_buckets w0]; apply repeat_length).
  assert (H0 : holds w0 []).
  { constructor; cbn [t_buckets t_peers t_used w0 length]; try assumption.
    - destruct (t_buckets w); [contradiction | discriminate].
    - constructor.
    - reflexivity.
    - lia.
    - intros i pid. assert (E : nth i (repeat (@nil N) (2 * length (t_buckets w))) [] = []).
      { destruct (Nat.lt_ge_cases i (2 * length (t_buckets w))) as [Hi|Hi]; [apply nth_repeat | apply nth_overflow; rewrite repeat_length; exact Hi]. }
      rewrite E. cbn [In]. tauto.
    - intros pid [].
    - intros i. assert (E : nth i (repeat (@nil N) (2 * length (t_buckets w))) [] = []).
      { destruct (Nat.lt_ge_cases i (2 * length (t_buckets w))) as [Hi|Hi]; [apply nth_repeat | apply nth_overflow; rewrite repeat_length; exact Hi]. }
      rewrite E. constructor. }
  (* only the peers with an address count *)
  assert (Skip : forall l w1 S, holds w1 S -> t_peers w1 = t_peers w -> length (t_buckets w1) = (2 * length (t_buckets w))%nat -> NoDup (l ++ S) ->
     (forall pid, In pid l -> exists a, In (pid, a) (t_peers w)) ->
     (length (filter (fun pid => match deref w pid with Ok a => has_address a | _ => false end) l) + length S <= 4 * length (t_buckets w))%nat ->
     exists w' S', foldM (insert_with (fun _ => UB)) l w1 = Ok w' /\ holds w' S' /\ t_peers w' = t_peers w /\
       (forall pid, In pid S' <-> In pid S \/ In pid l /\ exists a, deref w pid = Ok a /\ hashable a)).
  { induction l as [|pid l IH]; intros w1 S H P1 L1 Hnd Hin Hle; cbn [foldM].
    - exists w1, S. split; [reflexivity|]. split; [exact H|]. split; [exact P1|]. intros q. cbn [In]. tauto.
    - destruct (Hin pid (or_introl eq_refl)) as (a & Ha). assert (Hd : deref w pid = Ok a) by (apply deref_in; assumption).
      assert (Hd1 : deref w1 pid = Ok a) by (rewrite (deref_same w w1 pid P1); exact Hd).
      cbn [app] in Hnd. inversion Hnd as [|? ? Hn1 Hn2]; subst.
      assert (Hns : ~ In pid S) by (intros X; apply Hn1; apply in_or_app; right; exact X).
      cbn [filter] in Hle. rewrite Hd in Hle. destruct (has_address a) eqn:Eh.
      + assert (Hh : hashable a) by (apply hashable_has; [exact (Hf pid a Ha) | exact Eh]). cbn [length] in Hle. pose proof (ho_used _ _ H) as Hu.
        destruct (insert_one (fun _ => UB) w1 S pid a H Hd1 Hh Hns) as (w2 & E2 & H2 & P2 & L2); [lia|]. rewrite E2. cbn [bind].
        destruct (IH w2 (pid :: S) H2) as (w' & S' & E & H' & P' & In').
        * congruence.
        * congruence.
        * eapply Permutation_NoDup; [apply Permutation_middle | constructor; assumption].
        * intros q Hq. apply Hin. right. exact Hq.
        * cbn [length]. lia.
        * exists w', S'. split; [exact E|]. split; [exact H'|]. split; [exact P'|]. intros q. rewrite In'. cbn [In]. split.
          -- intros [[<- | X] | [X Y]]; [right; split; [left; reflexivity | exists a; split; assumption] | left; exact X | right; split; [right; exact X | exact Y]].
          -- intros [X | [[<- | X] Y]]; [left; right; exact X | left; left; reflexivity | right; split; assumption].
      + unfold insert_with at 1. rewrite Hd1. cbn [bind]. rewrite Eh. cbn [negb bind].
        destruct (IH w1 S H P1 L1 Hn2) as (w' & S' & E & H' & P' & In'); [intros q Hq; apply Hin; right; exact Hq | exact Hle|].
        exists w', S'. split; [exact E|]. split; [exact H'|]. split; [exact P'|]. intros q. rewrite In'. cbn [In]. split.
        * intros [X | [X Y]]; [left; exact X | right; split; [right; exact X | exact Y]].
        * intros [X | [[<- | X] Y]]; [left; exact X | | right; split; assumption]. exfalso. destruct Y as (a' & Y1 & Y2). rewrite Hd in Y1. injection Y1 as <-.
          destruct a; try contradiction; discriminate. }
  destruct (Skip (map fst (t_peers w)) w0 [] H0 eq_refl L0) as (w' & S' & E & H' & P' & In').
  - rewrite app_nil_r. exact Hn.
  - intros pid Hin. apply in_map_iff in Hin. destruct Hin as ([q a] & <- & Hin). exists a. exact Hin.
  - cbn [length]. assert (X : filter (fun pid => match deref w pid with Ok a => has_address a | _ => false end) (map fst (t_peers w)) = addressed w).
    { unfold addressed. assert (Y : forall l, (forall x, In x l -> In x (t_peers w)) ->
        filter (fun pid => match deref w pid with Ok a => has_address a | _ => false end) (map fst l) = map fst (filter (fun x => has_address (snd x)) l)).
      { induction l as [|[q a] l IHl]; intros Hl1; [reflexivity|]. cbn [map filter fst snd].
        replace (deref w q) with (Ok a) by (symmetry; apply deref_in; [exact Hn | apply Hl1; left; reflexivity]).
        rewrite (IHl (fun x Hx => Hl1 x (or_intror Hx))). destruct (has_address a); reflexivity. }
      apply Y. trivial. }
    rewrite X. lia.
  - exists w'. split; [exact E|]. split; [|exact P']. assert (A' : addressed w' = addressed w) by (unfold addressed; rewrite P'; reflexivity). rewrite A'.
    eapply holds_perm; [exact H'|]. apply NoDup_Permutation; [apply (ho_nodup _ _ H') | apply addressed_nodup; exact Hn|].
    intros pid. rewrite In', addressed_in by exact Hn. cbn [In]. split.
    + intros [[] | [_ (a & Hd & Ha)]]. exists a. split; [exact Hd | destruct a; try contradiction; reflexivity].
    + intros (a & Hd & Ha). right. apply deref_in in Hd; [|exact Hn]. split; [apply in_map_iff; exists (pid, a); split; [reflexivity | exact Hd]|].
      exists a. split; [apply deref_in; assumption|]. apply hashable_has; [exact (Hf pid a Hd) | exact Ha].
Qed.

(** Inserting a peer, possibly growing the table *)
Lemma insert_ok : forall seed w S pid a, holds w S -> families w -> deref w pid = Ok a -> hashable a -> ~ In pid S -> Permutation (addressed w) (pid :: S) ->
  exists w', insert seed pid w = Ok w' /\ tinv w' /\ t_peers w' = t_peers w.
Proof.
  intros seed w S pid a H Hf Hd Ha Hn Hp. pose proof (ho_load _ _ H) as Hlo. pose proof (ho_used _ _ H) as Hu.
  assert (Fam : forall w', t_peers w' = t_peers w -> families w') by (intros w' P q b; rewrite P; apply Hf).
  destruct (Nat.lt_ge_cases (t_used w) (2 * length (t_buckets w))) as [Hlt|Hge].
  - destruct (insert_one (resize seed) w S pid a H Hd Ha Hn Hlt) as (w' & E & H' & P' & _). exists w'. split; [exact E|]. split; [|exact P']. split; [|exact (Fam w' P')].
    replace (addressed w') with (addressed w) by (unfold addressed; rewrite P'; reflexivity). eapply holds_perm; [exact H' | apply Permutation_sym; exact Hp].
  - unfold insert, insert_with. rewrite Hd. cbn [bind]. replace (has_address a) with true by (destruct a; try contradiction; reflexivity). cbn [negb t_buckets t_used].
    replace (Nat.ltb _ _) with true by (symmetry; apply Nat.ltb_lt; lia).
    destruct (resize_ok seed (mk_table (t_peers w) (t_buckets w) (t_seed w) (Datatypes.S (t_used w)))) as (w' & E & H' & P').
    + apply (ho_ids _ _ H).
    + exact Hf.
    + apply (ho_size _ _ H).
    + change (addressed (mk_table (t_peers w) (t_buckets w) (t_seed w) (Datatypes.S (t_used w)))) with (addressed w).
      rewrite (Permutation_length Hp). cbn [length t_buckets]. pose proof (ho_size _ _ H) as Hs. destruct (t_buckets w); [contradiction|]. cbn [length] in *. lia.
    + exists w'. split; [exact E|]. split; [|exact P']. split; [exact H' | exact (Fam w' P')].
Qed.

Lemma delete_first_in : forall pid l q, NoDup l -> In q (delete_first pid l) <-> In q l /\ q <> pid.
Proof.
  intros pid l q. induction l as [|x l IH]; cbn [delete_first In]; intros Hn; [tauto|]. inversion Hn as [|? ? Hx Hl]; subst.
  destruct (N.eqb_spec x pid) as [->|Hne].
  - split; [intros H; split; [right; exact H | intros ->; contradiction]|]. intros [[<- | H] Hq]; [contradiction | exact H].
  - cbn [In]. rewrite (IH Hl). split; [intros [<- | [H Hq]]; [split; [left; reflexivity | exact Hne] | split; [right; exact H | exact Hq]]|].
    intros [[<- | H] Hq]; [left; reflexivity | right; split; assumption].
Qed.
Lemma delete_first_nodup : forall pid l, NoDup l -> NoDup (delete_first pid l).
Proof.
  intros pid l. induction l as [|x l IH]; cbn [delete_first]; intros Hn; [constructor|]. inversion Hn as [|? ? Hx Hl]; subst.
  destruct (N.eqb x pid); [exact Hl|]. constructor; [|exact (IH Hl)]. rewrite delete_first_in by exact Hl. tauto.
Qed.
Lemma delete_first_length : forall pid l, In pid l -> length l = S (length (delete_first pid l)).
Proof.
  intros pid l. induction l as [|x l IH]; cbn [delete_first In length]; intros Hin; [contradiction|]. destruct (N.eqb_spec x pid) as [->|Hne]; [reflexivity|].
  destruct Hin as [->|Hin]; [contradiction|]. cbn [length]. rewrite (IH Hin). reflexivity.
Qed.

(** Removing a peer *)
Lemma remove_ok : forall w pid, tinv w -> (exists a, deref w pid = Ok a) ->
  exists w', remove pid w = Ok w' /\ holds w' (delete_first pid (addressed w)) /\ t_peers w' = t_peers w.
Proof.
  intros w pid [H Hf] [a Hd]. unfold remove. rewrite Hd. cbn [bind]. pose proof (ho_ids _ _ H) as Hids.
  assert (Fa : a = AUnspec \/ hashable a) by (apply (Hf pid); apply deref_in; assumption).
  destruct (has_address a) eqn:Eh; cbn [negb].
  - assert (Hh : hashable a) by (apply hashable_has; assumption).
    assert (Hin : In pid (addressed w)) by (apply addressed_in; [exact Hids | exists a; split; assumption]).
    destruct H as [H1 H2 H3 H4 H5 H6 H7 H8].
    destruct (bucket_ok w a Hh H1) as [b Hb]. rewrite Hb. cbn [bind set_buckets t_used]. pose proof (delete_first_length pid _ Hin) as Hlen. rewrite H4, Hlen.
    eexists. split; [reflexivity|]. split; [|reflexivity]. cbn [t_peers t_buckets t_seed set_buckets]. pose proof (bucket_lt _ _ _ Hb) as Hlt.
    constructor; cbn [t_peers t_buckets t_seed t_used set_buckets].
    + intros E. apply (f_equal (@length _)) in E. rewrite upd_length in E. destruct (t_buckets w); [contradiction | discriminate].
    + exact H2.
    + apply delete_first_nodup. exact H3.
    + reflexivity.
    + rewrite upd_length. lia.
    + intros i q. rewrite nth_upd by exact Hlt.
      assert (Bk : forall x, bucket (mk_table (t_peers w) (upd_nth b (delete_first pid) (t_buckets w)) (t_seed w) (length (delete_first pid (addressed w)))) x = bucket w x)
        by (intros x; apply bucket_same; [reflexivity | apply upd_length]).
      setoid_rewrite Bk. change (deref (mk_table (t_peers w) (upd_nth b (delete_first pid) (t_buckets w)) (t_seed w) (length (delete_first pid (addressed w))))) with (deref w).
      rewrite (delete_first_in pid (addressed w)) by exact H3. destruct (Nat.eqb_spec i b) as [->|Hne].
      * rewrite delete_first_in by apply H8. rewrite H6. tauto.
      * rewrite H6. split; [|tauto]. intros [X (a' & Y1 & Y2)]. split; [|exists a'; split; assumption]. split; [exact X|]. intros ->.
        rewrite Hd in Y1. injection Y1 as <-. rewrite Hb in Y2. injection Y2 as ->. contradiction.
    + intros q Hq. apply delete_first_in in Hq; [|exact H3]. apply (H7 q). apply Hq.
    + intros i. rewrite nth_upd by exact Hlt. destruct (Nat.eqb i b); [apply delete_first_nodup; apply H8 | apply H8].
  - exists w. split; [reflexivity|]. split; [|reflexivity]. replace (delete_first pid (addressed w)) with (addressed w); [exact H|].
    assert (Hni : ~ In pid (addressed w)) by (rewrite addressed_in by exact Hids; intros (a' & X & Y); rewrite Hd in X; injection X as <-; congruence).
    clear - Hni. induction (addressed w) as [|x l IH]; [reflexivity|]. cbn [delete_first]. destruct (N.eqb_spec x pid) as [->|Hne]; [exfalso; apply Hni; left; reflexivity|].
    f_equal. apply IH. intros X. apply Hni. right. exact X.
Qed.

(** Changing the peer list for a peer that is not in the table *)
Lemma holds_peers : forall w S l, holds w S -> NoDup (map fst l) ->
  (forall q, In q S -> deref (mk_table l (t_buckets w) (t_seed w) (t_used w)) q = deref w q) ->
  holds (mk_table l (t_buckets w) (t_seed w) (t_used w)) S.
Proof.
  intros w S l [H1 H2 H3 H4 H5 H6 H7 H8] Hl Hd. constructor; cbn [t_buckets t_peers t_used]; try assumption.
  - intros i pid. rewrite H6. split; intros [X (a & Y & Z)]; (split; [exact X|]); exists a; (split; [|exact Z]); [rewrite Hd by exact X; exact Y | rewrite Hd in Y by exact X; exact Y].
  - intros pid Hin. destruct (H7 pid Hin) as (a & X & Y). exists a. split; [rewrite Hd by exact Hin; exact X | exact Y].
Qed.

Lemma map_fst_set : forall pid a (l : list (N * saddr)), map fst (map (fun x => if (fst x =? pid)%N then (pid, a) else x) l) = map fst l.
Proof.
  intros pid a l. induction l as [|[q b] l IH]; cbn [map fst]; [reflexivity|]. rewrite IH. destruct (N.eqb_spec q pid) as [->|]; reflexivity.
Qed.
Lemma deref_set : forall w pid a q, deref (set_addr pid a w) q = if (q =? pid)%N then (match deref w pid with Ok _ => Ok a | _ => UB end) else deref w q.
Proof.
  intros w pid a q. unfold deref, set_addr. cbn [t_peers]. induction (t_peers w) as [|[r b] l IH]; cbn [map find fst]; [destruct (N.eqb q pid); reflexivity|].
  destruct (N.eqb_spec r pid) as [->|Hne]; cbn [find fst snd].
  - destruct (N.eqb_spec pid q) as [->|Hq]; [rewrite N.eqb_refl; reflexivity|]. rewrite IH. destruct (N.eqb_spec q pid) as [->|]; [contradiction | reflexivity].
  - destruct (N.eqb_spec r q) as [->|Hq]; [destruct (N.eqb_spec q pid) as [->|]; [contradiction | reflexivity]|]. rewrite IH. reflexivity.
Qed.
Lemma deref_snoc : forall w pid a q, has w pid = false -> deref (mk_table (t_peers w ++ [(pid, a)]) (t_buckets w) (t_seed w) (t_used w)) q =
  if (q =? pid)%N then Ok a else deref w q.
Proof.
  intros w pid a q. unfold deref, has. cbn [t_peers]. induction (t_peers w) as [|[r b] l IH]; cbn [app find fst existsb]; intros H.
  - rewrite N.eqb_sym. destruct (N.eqb q pid); reflexivity.
  - apply orb_false_iff in H. destruct H as [H1 H2]. destruct (N.eqb_spec r q) as [->|Hq]; [rewrite H1; reflexivity | apply IH; exact H2].
Qed.
Lemma deref_filter : forall w pid q, deref (mk_table (filter (fun x => negb (fst x =? pid)%N) (t_peers w)) (t_buckets w) (t_seed w) (t_used w)) q =
  if (q =? pid)%N then UB else deref w q.
Proof.
  intros w pid q. unfold deref. cbn [t_peers]. induction (t_peers w) as [|[r b] l IH]; cbn [filter find fst]; [destruct (N.eqb q pid); reflexivity|].
  destruct (N.eqb_spec r pid) as [->|Hne]; cbn [negb find fst].
  - rewrite IH. destruct (N.eqb_spec pid q) as [->|Hq]; [rewrite N.eqb_refl; reflexivity | reflexivity].
  - destruct (N.eqb_spec r q) as [->|Hq]; [destruct (N.eqb_spec q pid) as [->|]; [contradiction | reflexivity] | exact IH].
Qed.
Lemma has_deref : forall w pid, has w pid = true <-> exists a, deref w pid = Ok a.
Proof.
  intros w pid. unfold has, deref. induction (t_peers w) as [|[r b] l IH]; cbn [existsb find fst]; [split; [discriminate | intros (a & X); discriminate]|].
  destruct (N.eqb_spec r pid) as [->|Hne]; cbn [orb snd]; [split; [intros _; exists b; reflexivity | reflexivity] | exact IH].
Qed.

(** The table's peers and addresses *)
Definition agrees (w : table) (m : addr_map) : Prop := forall pid, m pid = match deref w pid with Ok a => Some a | _ => None end.

Lemma legal_deref : forall w m pid, agrees w m -> m pid <> None -> exists a, deref w pid = Ok a.
Proof. intros w m pid Ha Hm. specialize (Ha pid). destruct (deref w pid) as [a| | |]; try (exfalso; congruence). exists a. reflexivity. Qed.
Lemma deref_cases : forall w pid, (exists a, deref w pid = Ok a) \/ deref w pid = UB.
Proof. intros w pid. unfold deref. destruct (find _ _) as [[q a]|]; [left; eexists; reflexivity | right; reflexivity]. Qed.

(** A set of peers that lists those with an address *)
Lemma tinv_intro : forall w S, holds w S -> families w -> (forall pid, In pid S <-> exists a, deref w pid = Ok a /\ has_address a = true) -> tinv w.
Proof.
  intros w S H Hf Hin. split; [|exact Hf]. pose proof (ho_ids _ _ H) as Hn. eapply holds_perm; [exact H|].
  apply NoDup_Permutation; [apply (ho_nodup _ _ H) | apply addressed_nodup; exact Hn|]. intros pid. rewrite Hin, addressed_in by exact Hn. tauto.
Qed.
Lemma families_deref : forall w, NoDup (map fst (t_peers w)) -> families w <-> (forall pid a, deref w pid = Ok a -> a = AUnspec \/ hashable a).
Proof.
  intros w Hn. split; intros H pid a X; apply (H pid); apply deref_in; assumption.
Qed.
Lemma addressed_left : forall w pid q, NoDup (map fst (t_peers w)) ->
  In q (delete_first pid (addressed w)) <-> q <> pid /\ exists a, deref w q = Ok a /\ has_address a = true.
Proof. intros w pid q Hn. rewrite delete_first_in by (apply addressed_nodup; exact Hn). rewrite addressed_in by exact Hn. tauto. Qed.

Lemma step_ok : forall o w m, tinv w -> agrees w m -> legal m o -> exists w', tstep o w = Ok w' /\ tinv w' /\ agrees w' (effect m o).
Proof.
  intros o w m Hi Ha Hl. pose proof Hi as [Ho Hf]. pose proof (ho_ids _ _ Ho) as Hids.
  destruct o as [pid | pid a seed | pid | pid]; cbn [legal effect tstep] in *.
  - assert (Hh : has w pid = false).
    { destruct (has w pid) eqn:E; [|reflexivity]. apply has_deref in E. destruct E as (a & E). specialize (Ha pid). rewrite E in Ha. congruence. }
    rewrite Hh. eexists. split; [reflexivity|].
    assert (D : forall q, deref (mk_table (t_peers w ++ [(pid, AUnspec)]) (t_buckets w) (t_seed w) (t_used w)) q = if (q =? pid)%N then Ok AUnspec else deref w q) by (intros q; apply deref_snoc; exact Hh).
    assert (Hnd : NoDup (map fst (t_peers w ++ [(pid, AUnspec)]))).
    { rewrite map_app. cbn [map fst]. apply nodup_snoc; [exact Hids|]. intros X. apply in_map_iff in X. destruct X as ([q b] & <- & X). cbn [fst] in *.
      apply deref_in in X; [|exact Hids]. assert (Y : has w q = true) by (apply has_deref; exists b; exact X). congruence. }
    split.
    + apply (tinv_intro _ (addressed w)).
      * apply holds_peers; [exact Ho | exact Hnd|]. intros q Hq. rewrite D. destruct (N.eqb_spec q pid) as [->|]; [|reflexivity].
        apply addressed_in in Hq; [|exact Hids]. destruct Hq as (b & X & _). assert (Y : has w pid = true) by (apply has_deref; exists b; exact X). congruence.
      * apply families_deref; [exact Hnd|]. intros q b. rewrite D. destruct (N.eqb q pid); [intros X; injection X as <-; left; reflexivity|]. apply families_deref; assumption.
      * intros q. rewrite addressed_in by exact Hids. setoid_rewrite D. destruct (N.eqb_spec q pid) as [->|]; [|tauto].
        split; [intros (b & X & _); assert (Y : has w pid = true) by (apply has_deref; exists b; exact X); congruence | intros (b & X & Y); injection X as <-; discriminate].
    + intros q. rewrite D. unfold put. destruct (N.eqb q pid); [reflexivity | apply Ha].
  - destruct Hl as [Hm Hfa]. destruct (remove_ok w pid Hi (legal_deref w m pid Ha Hm)) as (w1 & E1 & H1 & P1). rewrite E1. cbn [bind].
    destruct (legal_deref w m pid Ha Hm) as (b & Hb).
    assert (D1 : forall q, deref w1 q = deref w q) by (intros q; apply deref_same; exact P1).
    assert (D : forall q, deref (set_addr pid a w1) q = if (q =? pid)%N then Ok a else deref w q).
    { intros q. rewrite deref_set, !D1, Hb. reflexivity. }
    assert (Hnd : NoDup (map fst (t_peers (set_addr pid a w1)))) by (cbn [set_addr t_peers]; rewrite map_fst_set, P1; exact Hids).
    assert (Hfw : families (set_addr pid a w1)).
    { apply families_deref; [exact Hnd|]. intros q c. rewrite D. destruct (N.eqb q pid); [|apply families_deref; assumption]. intros X. injection X as <-. destruct a; try contradiction; [left; reflexivity | right; exact I | right; exact I]. }
    assert (H2 : holds (set_addr pid a w1) (delete_first pid (addressed w))).
    { apply holds_peers; [exact H1 | exact Hnd|]. intros q Hq. change (deref (set_addr pid a w1) q = deref w1 q). apply addressed_left in Hq; [|exact Hids].
      rewrite D, D1. destruct (N.eqb_spec q pid); [tauto | reflexivity]. }
    assert (Ag : forall w', t_peers w' = t_peers (set_addr pid a w1) -> agrees w' (put m pid (Some a))).
    { intros w' P' q. rewrite (deref_same _ _ q P'), D. unfold put. destruct (N.eqb q pid); [reflexivity | apply Ha]. }
    assert (C : a = AUnspec \/ hashable a) by (destruct a; try contradiction; [left; reflexivity | right; exact I | right; exact I]).
    destruct C as [-> | Hh].
    + unfold insert, insert_with. rewrite D, N.eqb_refl. cbn [bind has_address negb]. eexists. split; [reflexivity|]. split; [|apply Ag; reflexivity].
      apply (tinv_intro _ _ H2 Hfw). intros q. rewrite addressed_left by exact Hids. setoid_rewrite D. destruct (N.eqb_spec q pid) as [->|]; [|tauto].
      split; [tauto | intros (c & X & Y); injection X as <-; discriminate].
    + destruct (insert_ok seed (set_addr pid a w1) _ pid a H2 Hfw) as (w' & E' & I' & P').
      * rewrite D, N.eqb_refl. reflexivity.
      * exact Hh.
      * rewrite addressed_left by exact Hids. tauto.
      * apply NoDup_Permutation; [apply addressed_nodup; exact Hnd | constructor; [rewrite addressed_left by exact Hids; tauto | apply (ho_nodup _ _ H2)]|].
        intros q. rewrite addressed_in by exact Hnd. cbn [In]. rewrite addressed_left by exact Hids. setoid_rewrite D. destruct (N.eqb_spec q pid) as [->|Hne].
        -- split; [intros _; left; reflexivity|]. intros _. exists a. split; [reflexivity | destruct a; try contradiction; reflexivity].
        -- split; [intros X; right; split; assumption|]. intros [<- | [_ X]]; [contradiction | exact X].
      * exists w'. split; [exact E'|]. split; [exact I' | apply Ag; exact P'].
  - destruct (remove_ok w pid Hi (legal_deref w m pid Ha Hl)) as (w1 & E1 & H1 & P1). rewrite E1. cbn [bind]. eexists. split; [reflexivity|].
    destruct (legal_deref w m pid Ha Hl) as (b & Hb).
    assert (D1 : forall q, deref w1 q = deref w q) by (intros q; apply deref_same; exact P1).
    assert (D : forall q, deref (set_addr pid AUnspec w1) q = if (q =? pid)%N then Ok AUnspec else deref w q) by (intros q; rewrite deref_set, !D1, Hb; reflexivity).
    assert (Hnd : NoDup (map fst (t_peers (set_addr pid AUnspec w1)))) by (cbn [set_addr t_peers]; rewrite map_fst_set, P1; exact Hids).
    split.
    + apply (tinv_intro _ (delete_first pid (addressed w))).
      * apply holds_peers; [exact H1 | exact Hnd|]. intros q Hq. change (deref (set_addr pid AUnspec w1) q = deref w1 q). apply addressed_left in Hq; [|exact Hids].
        rewrite D, D1. destruct (N.eqb_spec q pid); [tauto | reflexivity].
      * apply families_deref; [exact Hnd|]. intros q c. rewrite D. destruct (N.eqb q pid); [|apply families_deref; assumption]. intros X. injection X as <-. left. reflexivity.
      * intros q. rewrite addressed_left by exact Hids. setoid_rewrite D. destruct (N.eqb_spec q pid) as [->|]; [|tauto].
        split; [tauto | intros (c & X & Y); injection X as <-; discriminate].
    + intros q. rewrite D. unfold put. destruct (N.eqb q pid); [reflexivity | apply Ha].
  - destruct (remove_ok w pid Hi (legal_deref w m pid Ha Hl)) as (w1 & E1 & H1 & P1). rewrite E1. cbn [bind]. eexists. split; [reflexivity|].
    assert (D1 : forall q, deref w1 q = deref w q) by (intros q; apply deref_same; exact P1).
    set (w2 := mk_table (filter (fun x => negb (fst x =? pid)%N) (t_peers w1)) (t_buckets w1) (t_seed w1) (t_used w1)).
    assert (D : forall q, deref w2 q = if (q =? pid)%N then UB else deref w q) by (intros q; unfold w2; rewrite deref_filter, D1; reflexivity).
    assert (Hnd : NoDup (map fst (t_peers w2))).
    { cbn [w2 t_peers]. rewrite P1. clear - Hids. induction (t_peers w) as [|[q b] l IH]; [constructor|]. cbn [map fst] in Hids. inversion Hids as [|? ? X Y]; subst.
      cbn [filter fst]. destruct (N.eqb q pid); cbn [negb]; [exact (IH Y)|]. cbn [map fst]. constructor; [|exact (IH Y)].
      intros Z. apply X. apply in_map_iff in Z. destruct Z as (x & <- & Z). apply filter_In in Z. apply in_map. apply Z. }
    split.
    + apply (tinv_intro _ (delete_first pid (addressed w))).
      * apply holds_peers; [exact H1 | exact Hnd|]. intros q Hq. change (deref w2 q = deref w1 q). apply addressed_left in Hq; [|exact Hids].
        rewrite D, D1. destruct (N.eqb_spec q pid); [tauto | reflexivity].
      * apply families_deref; [exact Hnd|]. intros q c. rewrite D. destruct (N.eqb q pid); [discriminate|]. apply families_deref; assumption.
      * intros q. rewrite addressed_left by exact Hids. setoid_rewrite D. destruct (N.eqb_spec q pid) as [->|]; [|tauto].
        split; [tauto | intros (c & X & Y); discriminate].
    + intros q. rewrite D. unfold put. destruct (N.eqb q pid); [reflexivity | apply Ha].
Qed.

Lemma run_ok : forall ops w m, tinv w -> agrees w m -> all_legal m ops -> exists w', trun ops w = Ok w' /\ tinv w' /\ agrees w' (fold_left effect ops m).
Proof.
  intros ops. induction ops as [|o ops IH]; intros w m Hi Ha Hl; cbn [trun foldM fold_left].
  - exists w. split; [reflexivity|]. split; assumption.
  - destruct Hl as [Hl1 Hl2]. destruct (step_ok o w m Hi Ha Hl1) as (w1 & -> & I1 & A1). cbn [bind]. apply IH; assumption.
Qed.

Lemma init_ok : forall seed, tinv (table_init seed) /\ agrees (table_init seed) (fun _ => None).
Proof.
  intros seed. split; [|intros pid; reflexivity]. split; [|intros pid a []].
  constructor; cbn [table_init t_buckets t_peers t_used addressed map filter length].
  - discriminate.
  - constructor.
  - constructor.
  - reflexivity.
  - lia.
  - intros i pid. assert (E : nth i (repeat (@nil N) 8) [] = []) by (do 9 (destruct i as [|i]; [reflexivity|]); destruct i; reflexivity). rewrite E. cbn [In]. tauto.
  - intros pid [].
  - intros i. assert (E : nth i (repeat (@nil N) 8) [] = []) by (do 9 (destruct i as [|i]; [reflexivity|]); destruct i; reflexivity). rewrite E. constructor.
Qed.

(** Looking up *)
Lemma scan_ok : forall w a l, (forall q, In q l -> exists b, deref w q = Ok b) ->
  (exists pid b, scan w a l = Ok (Some pid) /\ In pid l /\ deref w pid = Ok b /\ address_equal b a = true) \/
  (scan w a l = Ok None /\ forall q b, In q l -> deref w q = Ok b -> address_equal b a = false).
Proof.
  intros w a l. induction l as [|q l IH]; intros H; cbn [scan]; [right; split; [reflexivity | intros ? ? []]|].
  destruct (H q (or_introl eq_refl)) as (b & Hb). rewrite Hb. cbn [bind]. destruct (address_equal b a) eqn:E.
  - left. exists q, b. split; [reflexivity|]. split; [left; reflexivity|]. split; assumption.
  - destruct (IH (fun r Hr => H r (or_intror Hr))) as [(pid & c & X1 & X2 & X3 & X4) | (X1 & X2)].
    + left. exists pid, c. split; [exact X1|]. split; [right; exact X2|]. split; assumption.
    + right. split; [exact X1|]. intros r c [<- | Hr] Hd; [rewrite Hb in Hd; injection Hd as <-; exact E | exact (X2 r c Hr Hd)].
Qed.

Lemma lookup_ok : forall w m a, tinv w -> agrees w m -> hashable a ->
  (exists pid b, lookup w a = Ok (Some pid) /\ m pid = Some b /\ address_equal b a = true) \/
  (lookup w a = Ok None /\ forall pid b, m pid = Some b -> address_equal b a = false).
Proof.
  intros w m a [H Hf] Ha Hh. unfold lookup. destruct (bucket_ok w a Hh (ho_size _ _ H)) as (i & Hi). rewrite Hi. cbn [bind].
  destruct (scan_ok w a (nth i (t_buckets w) [])) as [(pid & b & X1 & X2 & X3 & X4) | (X1 & X2)].
  - intros q Hq. apply (ho_in _ _ H) in Hq. destruct Hq as (_ & b & Hb & _). exists b. exact Hb.
  - left. exists pid, b. split; [exact X1|]. split; [rewrite Ha, X3; reflexivity | exact X4].
  - right. split; [exact X1|]. intros pid b Hm. rewrite Ha in Hm. destruct (deref w pid) as [c| | |] eqn:Ed; try discriminate. injection Hm as ->.
    destruct (address_equal b a) eqn:E; [|reflexivity]. rewrite <- E. apply (X2 pid b); [|exact Ed]. apply (ho_in _ _ H).
    assert (Bb : has_address b = true) by (destruct b, a; try contradiction; try discriminate; reflexivity).
    split; [apply addressed_in; [apply (ho_ids _ _ H) | exists b; split; assumption]|]. exists b. split; [exact Ed|]. rewrite (bucket_eq w b a E). exact Hi.
Qed.

Lemma lookup_run : forall seed ops w a, all_legal (fun _ => None) ops -> trun ops (table_init seed) = Ok w -> hashable a ->
  (exists pid b, lookup w a = Ok (Some pid) /\ addresses ops pid = Some b /\ address_equal b a = true) \/
  (lookup w a = Ok None /\ forall pid b, addresses ops pid = Some b -> address_equal b a = false).
Proof.
  intros seed ops w a Hl Hr Ha. destruct (init_ok seed) as [I0 A0]. destruct (run_ok ops _ _ I0 A0 Hl) as (w' & E & I' & A').
  rewrite E in Hr. injection Hr as <-. exact (lookup_ok _ _ a I' A' Ha).
Qed.
Lemma run_defined : forall seed ops, all_legal (fun _ => None) ops -> exists w, trun ops (table_init seed) = Ok w.
Proof. intros seed ops Hl. destruct (init_ok seed) as [I0 A0]. destruct (run_ok ops _ _ I0 A0 Hl) as (w' & E & _). exists w'. exact E. Qed.
Lemma lookup_denotes : forall seed ops w a, all_legal (fun _ => None) ops -> trun ops (table_init seed) = Ok w -> hashable a ->
  swf a -> (forall pid b, addresses ops pid = Some b -> swf b /\ address_simplify b = b) ->
  exists r, lookup w (address_simplify a) = Ok r /\
    match r with
    | Some pid => exists b, addresses ops pid = Some b /\ denotes b = denotes a
    | None => forall pid b, addresses ops pid = Some b -> denotes b <> denotes a
    end.
Proof.
  intros seed ops w a Hl Hr Ha Hw Hs.
  assert (Ha' : hashable (address_simplify a)) by (destruct a; try contradiction; cbn [address_simplify]; [exact I | destruct (is_v4mapped ip); exact I]).
  destruct (lookup_run seed ops w _ Hl Hr Ha') as [(pid & b & E & M & Q) | (E & M)].
  - exists (Some pid). split; [exact E|]. exists b. split; [exact M|]. destruct (Hs pid b M) as [Hb Hsb]. apply equal_denotes; [exact Hb | exact Hw|]. rewrite Hsb. exact Q.
  - exists None. split; [exact E|]. intros pid b Hm Hd. destruct (Hs pid b Hm) as [Hb Hsb]. apply equal_denotes in Hd; [|exact Hb | exact Hw].
    rewrite Hsb, (M pid b Hm) in Hd. discriminate.
Qed.
(** at most one peer has an address: it is found *)
Lemma lookup_unique : forall seed ops w a pid b, all_legal (fun _ => None) ops -> trun ops (table_init seed) = Ok w -> hashable a ->
  addresses ops pid = Some b -> address_equal b a = true ->
  (forall pid' b', addresses ops pid' = Some b' -> address_equal b' a = true -> pid' = pid) ->
  lookup w a = Ok (Some pid).
Proof.
  intros seed ops w a pid b Hl Hr Ha Hm Hq Hu. destruct (lookup_run seed ops w a Hl Hr Ha) as [(p & c & E & M & Q) | (E & M)].
  - rewrite E, (Hu p c M Q). reflexivity.
  - rewrite (M pid b Hm) in Hq. discriminate.
Qed.
