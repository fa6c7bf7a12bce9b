(** Proofs about the memory of sessions: configured programs *)
From Verif Require Import Base BufferModel MethodModel NameModel NameSpec NameProofs ImplModel ImplSpec ImplProofs ImplProofs2 ImplProofs3 ImplProofs4.
From Coq Require Import Permutation String.
Notation length := List.length.

Lemma in_env : forall A (T : list (A * list (bytes * impl))) (c : list (option impl)) x, In (x, true) (combine (map fst T) (map some c)) -> exists l i, In ((x, l), Some i) (combine T c).
Proof.
  intros A T. induction T as [|[x0 l0] T IH]; cbn; intros [|y c] x H; cbn in H; try contradiction. destruct H as [H|H].
  - injection H as -> Hy. destruct y as [i|]; [|discriminate]. exists l0, i. now left.
  - destruct (IH c x H) as (l & i & Q). exists l, i. now right.
Qed.
Lemma combine_fst : forall A B (l : list A) (r : list B), exists n, map fst (combine l r) = firstn n l.
Proof.
  intros A B l. induction l as [|x l IH]; intros [|y r]; [now exists 0|now exists 0|now exists 0|]. destruct (IH r) as [n E]. exists (S n). cbn. now rewrite E.
Qed.
Lemma firstn_incl : forall A n (l : list A), incl (firstn n l) l.
Proof. intros A n l x H. rewrite <- (firstn_skipn n l). apply in_or_app. now left. Qed.
Lemma firstn_nodup : forall A n (l : list A), NoDup l -> NoDup (firstn n l).
Proof.
  intros A n. induction n as [|n IH]; intros [|x l] H; cbn; try constructor; inversion H as [|? ? N1 N2]; subst; [|now apply IH].
  intros Q. apply N1. eapply firstn_incl; eauto.
Qed.

Lemma env_of_ok : forall B cc mc, env_ok (lookup_env B cc mc).
Proof.
  intros B cc mc. unfold env_ok, lookup_env. cbn [e_ciphers e_macs].
  destruct (combine_fst _ _ (map fst (ciphers B)) (map some cc)) as [n ->]. destruct (combine_fst _ _ (map fst (macs B)) (map some mc)) as [n' ->].
  assert (N1 : NoDup (map fst (ciphers B))) by (pose proof (ciphers_names B) as H; rewrite <- (map_map fst ci_name) in H; now apply NoDup_map_inv in H).
  assert (N2 : NoDup (map fst (macs B))) by (pose proof (macs_names B) as H; rewrite <- (map_map fst mac_name) in H; now apply NoDup_map_inv in H).
  split; [now apply firstn_nodup|]. split.
  - eapply incl_tran; [apply firstn_incl|]. intros x H. apply in_map_iff in H. destruct H as ([x0 l] & <- & H). unfold ciphers in H. rewrite !in_app_iff in H. cbn [fst].
    destruct H as [H|[H|[H|H]]]; apply in_opt in H; destruct H as [_ H]; injection H as -> ->; cbn; auto.
  - split; [now apply firstn_nodup|]. eapply incl_tran; [apply firstn_incl|]. intros x H. apply in_map_iff in H. destruct H as ([x0 l] & <- & H). unfold macs in H. rewrite !in_app_iff in H. cbn [fst].
    destruct H as [H|H]; apply in_opt in H; destruct H as [_ H]; injection H as -> ->; cbn; auto.
Qed.

Definition good_impl (B : build) (cpu : N) (lc lm : list (bytes * bytes)) (i : impl) : Prop :=
  usable B cpu i /\ wanted B cpu (if is_mac i then lm else lc) i.

Section configured.
  Variables (B : build) (cpu : N) (lc lm : list (bytes * bytes)) (X : chosen) (ms : list (provider * method)).
  Hypothesis CF : configured B cpu lc lm X ms.
  Notation U := (good_impl B cpu lc lm).

  Lemma has_cipher : forall c, In (c, true) (e_ciphers (lookup_env B (x_cc X) (x_mc X))) -> cipher_good X U c.
  Proof.
    intros c H. destruct CF as [C1 C2 C3 C4 _]. cbn [lookup_env e_ciphers] in H. destruct (in_env _ _ _ _ H) as (l & i & Q).
    pose proof (get_impl_entry ci_name (ciphers B) (x_cc X) c l (Some i) c (ciphers_names B) Q eq_refl) as G.
    assert (Hc : In c (map fst (ciphers B))) by (apply in_combine_l in Q; now apply (in_map fst) in Q).
    destruct (choice_usable ci_name B false (ciphers B) (ciphers_names B) (ciphers_entry B) cpu lc (x_cc X) c i C3 Hc G) as (Us & M & A).
    destruct (proj1 (choice_wanted ci_name B false (ciphers B) (ciphers_names B) (ciphers_entry B) cpu lc (x_cc X) c C3 Hc i) G) as (_ & _ & W).
    exists i. unfold the_cipher. rewrite C1. split; [exact G|]. split; [unfold good_impl; rewrite M; split; [exact Us|exact W]|].
    split; [|split; [now symmetry|exact M]]. unfold cipher_keylen. rewrite A. destruct i; try discriminate; reflexivity.
  Qed.
  Lemma has_mac : forall x, In (x, true) (e_macs (lookup_env B (x_cc X) (x_mc X))) -> mac_good X U x.
  Proof.
    intros c H. destruct CF as [C1 C2 C3 C4 _]. cbn [lookup_env e_macs] in H. destruct (in_env _ _ _ _ H) as (l & i & Q).
    pose proof (get_impl_entry mac_name (macs B) (x_mc X) c l (Some i) c (macs_names B) Q eq_refl) as G.
    assert (Hc : In c (map fst (macs B))) by (apply in_combine_l in Q; now apply (in_map fst) in Q).
    destruct (choice_usable mac_name B true (macs B) (macs_names B) (macs_entry B) cpu lm (x_mc X) c i C4 Hc G) as (Us & M & A).
    destruct (proj1 (choice_wanted mac_name B true (macs B) (macs_names B) (macs_entry B) cpu lm (x_mc X) c C4 Hc i) G) as (_ & _ & W).
    exists i. unfold the_mac. rewrite C2. split; [exact G|]. split; [unfold good_impl; rewrite M; split; [exact Us|exact W]|].
    split; [now symmetry|exact M].
  Qed.

  Lemma all_good : forall p m, In (p, m) ms -> method_good X U p m.
  Proof.
    intros p m H. destruct (cf_methods _ _ _ _ _ _ CF p m H) as (ps & name & Cs & NE & E).
    destruct (create_by_name_total (lookup_env B (x_cc X) (x_mc X)) ps name (env_of_ok B _ _) Cs NE) as (r & E' & D).
    assert (r = Some (p, m)) by congruence. destruct (proj1 (D p m) H0) as (_ & S0 & s & _ & Dn). clear -S0 Dn CF.
    destruct Dn; cbn [method_good supports] in *; auto using has_cipher, has_mac.
    - destruct S0 as [S1 S2]. auto using has_cipher, has_mac.
    - destruct S0 as [S1 S2]. auto using has_cipher, has_mac.
    - destruct S0 as (S1 & S2 & S3). auto using has_cipher, has_mac.
    - destruct S0 as (S1 & S2 & S3). auto using has_cipher, has_mac.
  Qed.

  Lemma conf_run : forall l, sound (length ms) [] l -> exists s, run X l (start ms) = Ok s /\ Inv U ms s.
  Proof. intros l Sd. exact (run_ok X U ms all_good l (start ms) (start_ok U ms) Sd). Qed.
  Lemma conf_safe : forall l, sound (length ms) [] l -> exists s s', run X l (start ms) = Ok s /\ cleanup s = Ok s'.
  Proof. intros l Sd. destruct (conf_run l Sd) as (s & E & V). destruct (cleanup_ok U ms s V) as (s' & E' & _). eauto. Qed.
  Lemma conf_account : forall l s, sound (length ms) [] l -> run X l (start ms) = Ok s -> NoDup (holds s) /\ forall q, In q (holds s) <-> is_live (s_heap s) q.
  Proof. intros l s Sd E. destruct (conf_run l Sd) as (s1 & E1 & V). assert (s1 = s) by congruence. subst s1. exact (account U ms s V). Qed.
  Lemma conf_end : forall l s s', sound (length ms) [] l -> run X l (start ms) = Ok s -> cleanup s = Ok s' -> forall q, ~ is_live (s_heap s') q.
  Proof.
    intros l s s' Sd E E'. destruct (conf_run l Sd) as (s1 & E1 & V). assert (s1 = s) by congruence. subst s1.
    destruct (cleanup_ok U ms s V) as (s2 & E2 & A & _). assert (s2 = s') by congruence. subst s2. exact A.
  Qed.
  Lemma conf_wiped : forall l s, sound (length ms) [] l -> (run X l (start ms) = Ok s \/ exists s0, run X l (start ms) = Ok s0 /\ cleanup s0 = Ok s) ->
    forall q c, is_freed (s_heap s) q c -> ~ is_peer c -> clean c.
  Proof.
    intros l s Sd H q c. destruct (conf_run l Sd) as (s1 & E1 & V). destruct H as [H|(s0 & H & E)].
    - assert (s1 = s) by congruence. subst s1. now apply (wiped U ms).
    - assert (s1 = s0) by congruence. subst s1. destruct (cleanup_ok U ms s0 V) as (s2 & E2 & _ & A). assert (s2 = s) by congruence. subst s2. apply A.
  Qed.
  Lemma conf_keys : forall l i k secret H a e s p m, e = Established i k secret (Some H) true a \/ e = Finished i k secret (Some H) true a ->
    sound (length ms) [] (l ++ [e]) -> run X (l ++ [e]) (start ms) = Ok s -> nth_error ms k = Some (p, m) -> key_length p m <= length secret ->
    exists ps q, find_peer (s_peers s) i = Some ps /\ p_cur ps = mk_slot (Some k) (Some q) /\
      map (fun x => str (algorithm (fst x))) (parts_of (s_heap s) q) = algorithms m /\
      (forall x, In x (parts_of (s_heap s) q) -> usable B cpu (fst x) /\ wanted B cpu (if is_mac (fst x) then lm else lc) (fst x)) /\
      flat_map (key_in (s_heap s)) (filter derived (parts_of (s_heap s) q)) = firstn (key_length p m) secret /\
      (forall x, In x (parts_of (s_heap s) q) -> derived x = false -> key_in (s_heap s) x = block H).
  Proof.
    intros l i k secret H a e s p m HE Sd R N L.
    destruct (run_last X U ms all_good l (start ms) e (start_ok U ms) Sd) as (s0 & s' & R0 & V0 & E & V' & K & _).
    rewrite run_app, R0 in R. cbn [bind run] in R. rewrite E in R. cbn [bind] in R. injection R as <-.
    destruct (K i k secret (Some H)) as (ps & q & F & C & p' & m' & N' & SO & PO & A & KK & KH); [destruct HE as [-> | ->]; reflexivity|discriminate|].
    rewrite N in N'. injection N' as <- <-. exists ps, q. split; [exact F|]. split; [exact C|]. split; [exact A|]. split; [|split; [exact (KK L)|]].
    - intros x I. rewrite Forall_forall in PO. exact (proj1 (PO x I)).
    - intros x I D. destruct (KH x I D) as (H0 & Q & E0). injection Q as ->. exact E0.
  Qed.
  Lemma conf_cache : forall l i k secret H up a s, sound (length ms) [] (l ++ [Finished i k secret H up a]) -> run X (l ++ [Finished i k secret H up a]) (start ms) = Ok s ->
    exists p, find_peer (s_peers s) i = Some p /\ nth_error (s_heap s) (p_cell p) = Some (mk_cell Peer (repeat 0%N CACHE) true).
  Proof.
    intros l i k secret H up a s Sd R. destruct (run_last X U ms all_good l (start ms) _ (start_ok U ms) Sd) as (s0 & s' & R0 & V0 & E & V' & _ & K).
    rewrite run_app, R0 in R. cbn [bind run] in R. rewrite E in R. cbn [bind] in R. injection R as <-. exact (K i k secret H up a eq_refl).
  Qed.
End configured.

Lemma choice_both : forall B cpu l c,
  (choose ci_name cpu (ciphers B) l = Ok c -> forall x i, In x (map fst (ciphers B)) ->
     get_impl ci_name (ciphers B) c x = Some i <-> ci_name x = str (algorithm i) /\ is_mac i = false /\ wanted B cpu l i) /\
  (choose mac_name cpu (macs B) l = Ok c -> forall x i, In x (map fst (macs B)) ->
     get_impl mac_name (macs B) c x = Some i <-> x = str (algorithm i) /\ is_mac i = true /\ wanted B cpu l i).
Proof.
  intros B cpu l c. split; intros E x i H.
  - exact (choice_wanted ci_name B false (ciphers B) (ciphers_names B) (ciphers_entry B) cpu l c x E H i).
  - exact (choice_wanted mac_name B true (macs B) (macs_names B) (macs_entry B) cpu l c x E H i).
Qed.
Lemma refused_both : forall B cpu l,
  (choose ci_name cpu (ciphers B) l = Fatal <-> exists x, In x l /\ ~ exists i, asks x i /\ usable B cpu i /\ is_mac i = false) /\
  (choose mac_name cpu (macs B) l = Fatal <-> exists x, In x l /\ ~ exists i, asks x i /\ usable B cpu i /\ is_mac i = true) /\
  ((exists c, choose ci_name cpu (ciphers B) l = Ok c) \/ choose ci_name cpu (ciphers B) l = Fatal) /\
  ((exists c, choose mac_name cpu (macs B) l = Ok c) \/ choose mac_name cpu (macs B) l = Fatal).
Proof.
  intros B cpu l. split; [|split; [|split]].
  - exact (choice_refused ci_name B false (ciphers B) (ciphers_names B) (ciphers_entry B) (ciphers_all B) cpu l).
  - exact (choice_refused mac_name B true (macs B) (macs_names B) (macs_entry B) (macs_all B) cpu l).
  - exact (choice_total ci_name (ciphers B) (ciphers_names B) cpu l).
  - exact (choice_total mac_name (macs B) (macs_names B) cpu l).
Qed.
Lemma runs_both : forall B cpu l c,
  (choose ci_name cpu (ciphers B) l = Ok c -> forall x i, In x (map fst (ciphers B)) -> get_impl ci_name (ciphers B) c x = Some i -> usable B cpu i) /\
  (choose mac_name cpu (macs B) l = Ok c -> forall x i, In x (map fst (macs B)) -> get_impl mac_name (macs B) c x = Some i -> usable B cpu i).
Proof.
  intros B cpu l c. split; intros E x i H G.
  - now destruct (choice_usable ci_name B false (ciphers B) (ciphers_names B) (ciphers_entry B) cpu l c x i E H G).
  - now destruct (choice_usable mac_name B true (macs B) (macs_names B) (macs_entry B) cpu l c x i E H G).
Qed.
Lemma found_both : forall B cpu l c n,
  (choose ci_name cpu (ciphers B) l = Ok c -> (exists x, by_name ci_name (ciphers B) c n = Some x) <-> exists i, usable B cpu i /\ is_mac i = false /\ n = str (algorithm i)) /\
  (choose mac_name cpu (macs B) l = Ok c -> (exists x, by_name mac_name (macs B) c n = Some x) <-> exists i, usable B cpu i /\ is_mac i = true /\ n = str (algorithm i)).
Proof.
  intros B cpu l c n. split; intros E.
  - exact (choice_by_name ci_name B false (ciphers B) (ciphers_names B) (ciphers_entry B) (ciphers_all B) cpu l c n E).
  - exact (choice_by_name mac_name B true (macs B) (macs_names B) (macs_entry B) (macs_all B) cpu l c n E).
Qed.
