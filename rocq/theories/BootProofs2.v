(** The run modes and the start *)
From Verif Require Import Base BaseLemmas BufferModel MethodModel AddrModel LexModel KexModel KexSpec KexProofs HexModel HexSpec HexProofs ConfigModel ConfigSpec ConfigProofs6
  OptionsModel OptionsSpec PrivModel PrivSpec PrivProofs BootModel BootSpec BootProofs.
From Verif Require NameModel NameSpec NameProofs.
From Coq Require Import String.
Notation length := List.length.

Lemma range_parents E c : in_range E c -> parents_ok (c_groups c).
Proof. intros R. exact (r_groups E c R). Qed.

Lemma verify_mode E H o : host_ok H -> in_range E (o_conf o) -> names_ok (o_conf o) -> o_verify o = true ->
  (config_ok H (o_conf o) /\ init_config H o = ([], Exited)) \/ (~ config_ok H (o_conf o) /\ init_config H o = ([], Failed)).
Proof.
  intros O R N V. pose proof (range_parents _ _ R) as W. unfold init_config. rewrite V. unfold config_verify, config_ok. destruct (check_base H (o_conf o)) eqn:B.
  - apply (check_base_spec H _ W) in B. destruct (configured H (root_of (o_conf o)) (named (o_conf o)) O (fun s => root_used _ s W) N) as [[(s & Ns & U) ->]|(t & -> & G & _)].
    + right. split; [|reflexivity]. intros [_ A]. destruct (A s Ns) as (p & m & K). exact (U p m K).
    + left. split; [|reflexivity]. split; [exact B|]. intros s Ns. destruct (G s Ns) as (p & m & K & _). exists p, m. exact K.
  - right. split; [|reflexivity]. intros [A _]. apply (check_base_spec H _ W) in A. congruence.
Qed.

Lemma generate_text H machine r : host_ok H -> h_random H = Some r ->
  let k := sanitize r in word256 k /\ le_val k = ephemeral r /\
  generate_key H machine = Ok (if machine then line [] (HexProofs.text k) else line Secret_ (HexProofs.text k) ++ line Public_ (HexProofs.text (public_key H k))).
Proof.
  intros O E k. destruct (sanitize_spec r (ho_random H O r E)) as [A B]. split; [exact B|]. split; [exact A|]. unfold generate_key. rewrite E. fold k in A, B. change (sanitize r) with k.
  rewrite (public_of_key H k B). destruct (public_fine H k O) as [P1 P2]. destruct B as [B1 B2]. destruct machine.
  - rewrite (print_text _ _ B1 B2). reflexivity.
  - rewrite (print_text _ _ B1 B2), (print_text _ _ P1 P2). reflexivity.
Qed.
Lemma generate_mode H o : host_ok H -> o_verify o = false -> o_generate o = true ->
  (h_random H = None /\ init_config H o = ([], Failed)) \/
  exists r k s p, h_random H = Some r /\ word256 k /\ le_val k = ephemeral r /\ digits_of s k /\ digits_of p (public_key H k) /\
    init_config H o = ([Out (if o_machine o then line [] s else line Secret_ s ++ line Public_ p)], Exited).
Proof.
  intros O V G. unfold init_config. rewrite V, G. destruct (h_random H) as [r|] eqn:E.
  - right. destruct (generate_text H (o_machine o) r O E) as (A & B & C). exists r, (sanitize r), (HexProofs.text (sanitize r)), (HexProofs.text (public_key H (sanitize r))).
    split; [reflexivity|]. split; [exact A|]. split; [exact B|]. split; [apply text_digits; exact (proj2 A)|]. split; [apply text_digits; exact (proj2 (public_fine H _ O))|].
    rewrite C. reflexivity.
  - left. split; [reflexivity|]. unfold generate_key. rewrite E. reflexivity.
Qed.

Lemma show_mode H o : host_ok H -> o_verify o = false -> o_generate o = false -> o_show o = true ->
  (exists k p, secret_is (o_conf o) k /\ digits_of p (public_key H k) /\ init_config H o = ([Out (line (if o_machine o then [] else Public_) p)], Exited)) \/
  ((forall k, ~ secret_is (o_conf o) k) /\ init_config H o = ([], Failed)).
Proof.
  intros O V G S. unfold init_config. rewrite V, G. destruct (init_key_spec H (o_conf o) O) as [(k & kp & K & -> & P & _)|[N ->]]; cbn [after].
  - left. rewrite S. exists k, (HexProofs.text (public_key H k)). destruct (public_fine H k O) as [P1 P2]. split; [exact K|]. split; [exact (text_digits _ P2)|].
    unfold show_key. rewrite P, (print_text _ _ P1 P2). reflexivity.
  - right. split; [exact N|reflexivity].
Qed.

(** * The start *)

Lemma configure_none S c k : configure_user S c k = None -> forall uid gid, ~ target S c k uid gid.
Proof.
  unfold configure_user, target. intros C uid gid [A B]. destruct (c_user c) as [u|].
  - destruct A as [g A]. rewrite A in C. destruct (c_group c) as [g'|]; [rewrite B in C; discriminate C|discriminate C].
  - destruct (c_group c) as [g'|]; [rewrite B in C; discriminate C|discriminate C].
Qed.

Definition extended (c : conf) : conf :=
  match at_group (c_groups c) 0 gc_methods with
  | [] => update_group 0 (fun x => set_gc_methods (NameModel.config_method (gc_methods x) (NameModel.str "null")) x) c
  | _ => c
  end.
Lemma extended_cases c : c_groups c <> [] ->
  (extended c = c /\ ~ bare c) \/ (extended c = update_group 0 (set_gc_methods [NameModel.str "null"]) c /\ bare c).
Proof.
  intros NE. unfold extended, at_group, bare. destruct (c_groups c) as [|g gs] eqn:G; [contradiction|]. cbn [nth_error]. destruct (gc_methods g) as [|m ms] eqn:M.
  - right. split; [|exists g; split; [reflexivity|exact M]]. unfold update_group. rewrite G. cbn [update]. rewrite M. reflexivity.
  - left. split; [reflexivity|]. intros (g' & N & M'). injection N as <-. congruence.
Qed.
Lemma extended_named c s : c_groups c <> [] -> named (extended c) s <-> in_use c s.
Proof.
  intros NE. unfold in_use. destruct (extended_cases c NE) as [[-> B]|[-> B]].
  - split; [intros K; left; exact K|intros [K|[K _]]; [exact K|contradiction]].
  - unfold named, bare in *. destruct B as (g0 & B1 & B2). unfold update_group. destruct (c_groups c) as [|g gs] eqn:G; [contradiction|]. cbn [nth_error] in B1. injection B1 as <-.
    cbn [update]. cbn [c_groups set_c_groups]. split.
    + intros (x & [<-|I] & M).
      * right. split; [exists g; split; [reflexivity|exact B2]|]. destruct M as [<-|[]]. reflexivity.
      * left. exists x. split; [right; exact I|exact M].
    + intros [(x & [<-|I] & M)|[_ ->]].
      * rewrite B2 in M. destruct M.
      * exists x. split; [right; exact I|exact M].
      * eexists. split; [left; reflexivity|]. left. reflexivity.
Qed.
Lemma extended_parents c : parents_ok (c_groups c) -> parents_ok (c_groups (extended c)).
Proof.
  intros W. unfold extended. destruct (at_group _ _ _); [|exact W]. unfold update_group. cbn [c_groups set_c_groups]. intros i x N. rewrite update_nth in N.
  destruct (Nat.eqb_spec i 0) as [->|_]; [|exact (W i x N)]. destruct (nth_error (c_groups c) 0) as [g|] eqn:G; [|discriminate N]. injection N as <-. exact (W _ _ G).
Qed.
Lemma extended_user c : c_user (extended c) = c_user c /\ c_group (extended c) = c_group c.
Proof. unfold extended. destruct (at_group _ _ _); split; reflexivity. Qed.
Lemma null_string : NameSpec.c_string (NameModel.str "null") /\ NameModel.str "null" <> [].
Proof. split; [|discriminate]. intros I. vm_compute in I. intuition discriminate. Qed.

Lemma check_spec H c : host_ok H -> parents_ok (c_groups c) -> c_groups c <> [] -> names_ok c -> h_sodium H = true ->
  (~ start_ok H c /\ config_check H c = Fatal) \/
  (start_ok H c /\ exists x, config_check H c = Ok x /\ target (h_sys H) c (h_cred H) (k_uid x) (k_gid x) /\
    k_groups x = match c_user c with Some u => Some (s_list (h_sys H) u (k_gid x)) | None => None end /\
    (forall s, in_use c s -> exists p m, supported H s p m /\ NameModel.get_by_name (k_table x) s = Ok (Some (s, p, m))) /\
    (forall s, ~ in_use c s -> NameModel.get_by_name (k_table x) s = Ok None) /\ k_conf x = extended c).
Proof.
  intros O W NE N SOD. unfold config_check, start_ok. fold (extended c).
  destruct (check_base H c) eqn:B; cbn [negb].
  2: { left. split; [|reflexivity]. intros (A & _). apply (check_base_spec H c W) in A. congruence. }
  apply (check_base_spec H c W) in B.
  destruct ((match c_peers c with [] => true | _ => false end) && negb (peer_dirs c) && negb (verifies H c)) eqn:P.
  { left. split; [|reflexivity]. intros (_ & A & _). apply Bool.andb_true_iff in P. destruct P as [P P3]. apply Bool.andb_true_iff in P. destruct P as [P1 P2].
    apply Bool.negb_true_iff in P2. apply Bool.negb_true_iff in P3. destruct A as [A|[A|A]].
    - destruct (c_peers c); [contradiction|discriminate P1].
    - apply (peer_dirs_spec c W) in A. congruence.
    - apply verifies_spec in A. congruence. }
  assert (PO : peers_ok H c).
  { unfold peers_ok. destruct (c_peers c) as [|q r]; [|left; discriminate]. cbn [andb] in P. destruct (peer_dirs c) eqn:D; [right; left; apply (peer_dirs_spec c W); exact D|].
    destruct (verifies H c) eqn:V; [right; right; apply verifies_spec; exact V|]. discriminate P. }
  assert (CU : configure_user (h_sys H) (extended c) (h_cred H) = configure_user (h_sys H) c (h_cred H)).
  { unfold configure_user. destruct (extended_user c) as [-> ->]. reflexivity. }
  rewrite CU. destruct (configure_user (h_sys H) c (h_cred H)) as [[[uid gid] gs]|] eqn:U.
  2: { left. split; [|reflexivity]. intros (_ & _ & _ & (uid & gid & T) & _). exact (configure_none _ _ _ U uid gid T). }
  destruct (configure_target _ _ _ _ _ _ U) as [T GS].
  destruct (configured H (root_of (extended c)) (in_use c) O) as [[(s & Ns & X) ->]|(t & -> & G & G')].
  - intros s. rewrite (root_used _ s (extended_parents c W)). exact (extended_named c s NE).
  - intros s [K|[_ ->]]; [exact (N s K)|exact null_string].
  - left. split; [|reflexivity]. intros (_ & _ & _ & _ & A). destruct (A s Ns) as (p & m & K). exact (X p m K).
  - right. split.
    + split; [exact B|]. split; [exact PO|]. split; [exact SOD|]. split; [exists uid, gid; exact T|]. intros s Ns. destruct (G s Ns) as (p & m & K & _). exists p, m. exact K.
    + eexists. split; [reflexivity|]. cbn [k_uid k_gid k_groups k_table k_conf]. split; [exact T|]. split; [exact GS|]. split; [exact G|]. split; [exact G'|reflexivity].
Qed.

Lemma start_mode E H o : host_ok H -> in_range E (o_conf o) -> c_groups (o_conf o) <> [] -> names_ok (o_conf o) ->
  o_verify o = false -> o_generate o = false -> o_show o = false ->
  ((forall k, ~ secret_is (o_conf o) k) /\ init_config H o = ([], Failed)) \/
  exists k, secret_is (o_conf o) k /\
    ((~ start_ok H (o_conf o) /\ init_config H o = (init_events o, Failed)) \/
     (start_ok H (o_conf o) /\ exists kp x, init_config H o = (init_events o, Running kp x) /\ state_ok H (o_conf o) k kp x)).
Proof.
  intros O R NE N V G S. unfold init_config. rewrite V, G. destruct (init_key_spec H (o_conf o) O) as [(k & kp & K & -> & P & P')|[X ->]]; cbn [after].
  2: { left. split; [exact X|reflexivity]. }
  right. exists k. split; [exact K|]. rewrite S. unfold emits. destruct (h_sodium H) eqn:SOD; cbn [negb].
  2: { left. split; [intros (_ & _ & A & _); congruence|]. cbn [fst snd]. rewrite app_nil_r. reflexivity. }
  destruct (check_spec H (o_conf o) O (range_parents _ _ R) NE N SOD) as [[A ->]|(A & x & -> & T & GS & M & M' & C)]; cbn [after fst snd]; rewrite app_nil_r.
  - left. split; [exact A|reflexivity].
  - right. split; [exact A|]. exists kp, x. split; [reflexivity|]. constructor; try assumption.
    rewrite C. destruct (extended_cases _ NE) as [D|D]; [left|right]; exact D.
Qed.

Lemma verify_rejects E H o o' : host_ok H -> in_range E (o_conf o) -> c_groups (o_conf o) <> [] -> names_ok (o_conf o) -> o_conf o' = o_conf o ->
  o_verify o = true -> snd (init_config H o) <> Exited ->
  o_verify o' = false -> o_generate o' = false -> o_show o' = false -> snd (init_config H o') = Failed.
Proof.
  intros O R NE N C V F V' G' S'. destruct (verify_mode E H o O R N V) as [[_ A]|[A _]]; [rewrite A in F; contradiction|].
  rewrite <- C in R, NE, N, A. destruct (start_mode E H o' O R NE N V' G' S') as [[_ ->]|(k & _ & [[_ ->]|[B _]])]; try reflexivity.
  exfalso. apply A. destruct B as (B1 & _ & _ & _ & B2). split; [exact B1|]. intros s K. apply B2. left. exact K.
Qed.
