(** The run modes from the command line *)
From Verif Require Import Base BaseLemmas BufferModel MethodModel AddrModel LexModel KexModel KexSpec KexProofs HexModel HexSpec HexProofs ConfigModel ConfigSpec ConfigProofs6
  OptionsModel OptionsSpec OptionsProofs4 PrivModel PrivSpec PrivProofs BootModel BootSpec BootProofs BootProofs2.
From Verif Require NameModel NameSpec NameProofs.
From Coq Require Import String.
Notation length := List.length.

Section Line.
Variables (E : env) (B : obuild) (cwd : bytes).

Lemma line_groups args o : configure E B cwd args = Ok (Run o) -> c_groups (o_conf o) <> [].
Proof.
  intros C. apply line_meaning in C. destruct C as (oes & o0 & _ & S & ->).
  assert (R : c_groups (o_conf o0) <> []).
  { destruct S as [(c & D & ->) _ _ _ _ _ _ _]. intros X. pose proof (d_groups _ _ _ D 0%nat) as G. cbn [all_heads nth_error option_map] in G.
    assert (Y : c_groups c = []) by exact X. rewrite Y in G. discriminate G. }
  unfold with_log. destruct (c_stderr (o_conf o0)), (c_syslog (o_conf o0)); exact R.
Qed.

Lemma handle_app n : forall args o o1 rest, (length args <= n)%nat -> handle E B cwd args o = Ok (Run o1) -> handle E B cwd (args ++ rest) o = handle E B cwd rest o1.
Proof.
  induction n as [|n IH]; intros args o o1 rest L H.
  - destruct args; [|cbn [List.length] in L; lia]. cbn [handle] in H. injection H as <-. reflexivity.
  - destruct args as [|a args]; [cbn [handle] in H; injection H as <-; reflexivity|]. change ((a :: args) ++ rest) with (a :: (args ++ rest)). cbn [handle] in H |- *. destruct (lookup E B a) as [[f|k]|]; [| |discriminate H].
    + destruct (do_flag f o) as [o'|]; [|discriminate H]. apply (IH args o' o1 rest); [cbn [List.length] in L; lia|exact H].
    + destruct args as [|v args]; [discriminate H|]. change ((v :: args) ++ rest) with (v :: (args ++ rest)). cbv beta iota. destruct (do_arg E cwd k v o) as [o'| | |]; try discriminate H. cbn [bind] in *. apply (IH args o' o1 rest); [cbn [List.length] in L; lia|exact H].
Qed.

Lemma configure_mode a f args o : lookup E B a = Some (inl f) -> In f [FVerify; FGenerate; FShow] -> configure E B cwd args = Ok (Run o) ->
  exists o', configure E B cwd (args ++ [a]) = Ok (Run o') /\ do_flag f o = Some o'.
Proof.
  unfold configure. intros L I C. destruct (handle E B cwd args start) as [[|o1]| | |] eqn:Ha; try discriminate C. cbn [bind] in C. injection C as <-.
  rewrite (handle_app (length args) args start o1 [a] (le_n _) Ha). cbn [handle]. rewrite L. destruct I as [<-|[<-|[<-|[]]]]; cbn [do_flag handle bind o_conf]; eexists; split; reflexivity.
Qed.
End Line.

Definition opt_verify : bytes := w "--verify-config".
Definition opt_generate : bytes := w "--generate-key".
Definition opt_show : bytes := w "--show-key".
Lemma lookup_modes E B : lookup E B opt_verify = Some (inl FVerify) /\ lookup E B opt_generate = Some (inl FGenerate) /\ lookup E B opt_show = Some (inl FShow).
Proof. unfold lookup. destruct B as [b1 b2 b3 b4], (e_build E). repeat split; destruct b1, b2, b3, b4; vm_compute; reflexivity. Qed.

Section Modes.
Variables (E : env) (B : obuild) (cwd : bytes) (H : host).
Hypothesis O : host_ok H.

Lemma boot_run args o : configure E B cwd args = Ok (Run o) -> boot E B cwd H args = init_config H o.
Proof. intros C. unfold boot. rewrite C. reflexivity. Qed.

Theorem line_verify args o : configure E B cwd args = Ok (Run o) -> names_ok (o_conf o) -> o_verify o = true ->
  (config_ok H (o_conf o) /\ boot E B cwd H args = ([], Exited)) \/ (~ config_ok H (o_conf o) /\ boot E B cwd H args = ([], Failed)).
Proof. intros C N V. rewrite (boot_run _ _ C). exact (verify_mode E H o O (line_ranges E B cwd args o C) N V). Qed.
Theorem line_generate args o : configure E B cwd args = Ok (Run o) -> o_verify o = false -> o_generate o = true ->
  (h_random H = None /\ boot E B cwd H args = ([], Failed)) \/
  exists r k s p, h_random H = Some r /\ word256 k /\ le_val k = ephemeral r /\ digits_of s k /\ digits_of p (public_key H k) /\
    boot E B cwd H args = ([Out (if o_machine o then line [] s else line Secret_ s ++ line Public_ p)], Exited).
Proof. intros C V G. rewrite (boot_run _ _ C). exact (generate_mode H o O V G). Qed.
Theorem line_show args o : configure E B cwd args = Ok (Run o) -> o_verify o = false -> o_generate o = false -> o_show o = true ->
  (exists k p, secret_is (o_conf o) k /\ digits_of p (public_key H k) /\ boot E B cwd H args = ([Out (line (if o_machine o then [] else Public_) p)], Exited)) \/
  ((forall k, ~ secret_is (o_conf o) k) /\ boot E B cwd H args = ([], Failed)).
Proof. intros C V G S. rewrite (boot_run _ _ C). exact (show_mode H o O V G S). Qed.
Theorem line_start args o : configure E B cwd args = Ok (Run o) -> names_ok (o_conf o) -> o_verify o = false -> o_generate o = false -> o_show o = false ->
  ((forall k, ~ secret_is (o_conf o) k) /\ boot E B cwd H args = ([], Failed)) \/
  exists k, secret_is (o_conf o) k /\
    ((~ start_ok H (o_conf o) /\ boot E B cwd H args = (init_events o, Failed)) \/
     (start_ok H (o_conf o) /\ exists kp x, boot E B cwd H args = (init_events o, Running kp x) /\ state_ok H (o_conf o) k kp x)).
Proof. intros C N V G S. rewrite (boot_run _ _ C). exact (start_mode E H o O (line_ranges E B cwd args o C) (line_groups E B cwd args o C) N V G S). Qed.

(** Adding --verify-config *)
Theorem dry_run args o : configure E B cwd args = Ok (Run o) -> names_ok (o_conf o) ->
  boot E B cwd H (args ++ [opt_verify]) = ([], Exited) \/
  (boot E B cwd H (args ++ [opt_verify]) = ([], Failed) /\ forall kp x, snd (boot E B cwd H args) <> Running kp x).
Proof.
  intros C N. destruct (configure_mode E B cwd opt_verify FVerify args o (proj1 (lookup_modes E B)) (or_introl eq_refl) C) as (o' & C' & D). cbn [do_flag] in D. injection D as <-.
  destruct (line_verify _ _ C' N eq_refl) as [[_ A]|[A A']]; [left; exact A|]. right. split; [exact A'|]. cbn [o_conf] in A. intros kp x X.
  destruct (o_verify o) eqn:V.
  { destruct (line_verify _ _ C N V) as [[_ Y]|[_ Y]]; rewrite Y in X; discriminate X. }
  destruct (o_generate o) eqn:G.
  { destruct (line_generate _ _ C V G) as [[_ Y]|(r & k & s & p & _ & _ & _ & _ & _ & Y)]; rewrite Y in X; discriminate X. }
  destruct (o_show o) eqn:S.
  { destruct (line_show _ _ C V G S) as [(k & p & _ & _ & Y)|[_ Y]]; rewrite Y in X; discriminate X. }
  destruct (line_start _ _ C N V G S) as [[_ Y]|(k & _ & [[_ Y]|[Y _]])]; [rewrite Y in X; discriminate X|rewrite Y in X; discriminate X|].
  apply A. destruct Y as (Y1 & _ & _ & _ & Y2). split; [exact Y1|]. intros s K. apply Y2. left. exact K.
Qed.

(** Adding --show-key *)
Theorem shown args kp x : snd (boot E B cwd H args) = Running kp x ->
  exists label p, boot E B cwd H (args ++ [opt_show]) = ([Out (line label p)], Exited) /\ (label = [] \/ label = Public_) /\ digits_of p (kp_public kp).
Proof.
  intros X. unfold boot in X. destruct (configure E B cwd args) as [[|o]| | |] eqn:C; try discriminate X.
  destruct (configure_mode E B cwd opt_show FShow args o (proj2 (proj2 (lookup_modes E B))) (or_intror (or_intror (or_introl eq_refl))) C) as (o' & C' & D). cbn [do_flag] in D. injection D as <-.
  unfold init_config in X. destruct (o_verify o) eqn:V. { destruct (config_verify H (o_conf o)); discriminate X. }
  destruct (o_generate o) eqn:G. { destruct (generate_key H (o_machine o)); discriminate X. }
  destruct (init_key_spec H (o_conf o) O) as [(k & kp' & K & EK & P & _)|[_ EK]]; rewrite EK in X; [|discriminate X]. cbn [after] in X.
  destruct (o_show o) eqn:S. { destruct (show_key (o_machine o) kp'); discriminate X. }
  unfold emits in X. cbn [snd] in X. destruct (negb (h_sodium H)); [discriminate X|]. destruct (config_check H (o_conf o)); try discriminate X. cbn [after snd] in X. injection X as -> _.
  destruct (line_show _ _ C' eq_refl eq_refl eq_refl) as [(k' & p & K' & Dp & Y)|[Y _]]; [|exfalso; exact (Y k K)]. cbn [o_conf o_machine] in *.
  exists (if o_machine o then [] else Public_), p. split; [exact Y|]. split; [destruct (o_machine o); [left|right]; reflexivity|]. rewrite P, (secret_unique _ _ _ K K'). exact Dp.
Qed.

(** A generated secret in a configuration *)
Theorem fresh args o t : configure E B cwd args = Ok (Run o) -> o_generate o = true -> fst (boot E B cwd H args) = [Out t] ->
  exists s p, t = (if o_machine o then line [] s else line Secret_ s ++ line Public_ p) /\
    forall H' args' o', host_ok H' -> h_kex H' = h_kex H -> configure E B cwd args' = Ok (Run o') -> c_secret (o_conf o') = Some s ->
      (exists k, secret_is (o_conf o') k) /\
      (o_verify o' = false -> o_generate o' = false -> o_show o' = true ->
       boot E B cwd H' args' = ([Out (line (if o_machine o' then [] else Public_) p)], Exited)).
Proof.
  intros C G X. destruct (o_verify o) eqn:V. { rewrite (boot_run _ _ C) in X. unfold init_config in X. rewrite V in X. destruct (config_verify H (o_conf o)); discriminate X. }
  destruct (line_generate _ _ C V G) as [[_ Y]|(r & k & s & p & _ & W & EV & Ds & Dp & Y)]; rewrite Y in X; [discriminate X|]. cbn [fst] in X. injection X as <-.
  exists s, p. split; [reflexivity|]. intros H' args' o' O' EK C' CS.
  assert (K : secret_is (o_conf o') k).
  { exists s. split; [exact CS|]. split; [exact (proj1 Ds)|]. split; [exact (proj1 W)|]. rewrite EV. unfold ephemeral. change (2 ^ 254)%N with (2 ^ 251 * 8)%N.
    rewrite (N.mul_comm 8), <- N.mul_add_distr_r. apply N.mod_mul. discriminate. }
  split; [exists k; exact K|]. intros V' G' S'. unfold boot. rewrite C'.
  destruct (show_mode H' o' O' V' G' S') as [(k' & p' & K' & Dp' & Y')|[Y' _]]; [|exfalso; exact (Y' k K)].
  rewrite <- (secret_unique _ _ _ K K') in Dp'. assert (PK : public_key H' k = public_key H k) by (unfold public_key; rewrite EK; reflexivity). rewrite PK in Dp'.
  rewrite (digits_unique _ _ _ Dp Dp'). exact Y'.
Qed.

(** No undefined behaviour *)
Theorem line_safe args : (forall o, configure E B cwd args = Ok (Run o) -> names_ok (o_conf o)) -> snd (boot E B cwd H args) = Broken ->
  configure E B cwd args = Bug \/ configure E B cwd args = UB.
Proof.
  intros N X. destruct (configure E B cwd args) as [[|o]| | |] eqn:C; try (left; reflexivity); try (right; reflexivity); try (unfold boot in X; rewrite C in X; discriminate X).
  exfalso. specialize (N o eq_refl). destruct (o_verify o) eqn:V.
  { destruct (line_verify _ _ C N V) as [[_ Y]|[_ Y]]; rewrite Y in X; discriminate X. }
  destruct (o_generate o) eqn:G.
  { destruct (line_generate _ _ C V G) as [[_ Y]|(r & k & s & p & _ & _ & _ & _ & _ & Y)]; rewrite Y in X; discriminate X. }
  destruct (o_show o) eqn:S.
  { destruct (line_show _ _ C V G S) as [(k & p & _ & _ & Y)|[_ Y]]; rewrite Y in X; discriminate X. }
  destruct (line_start _ _ C N V G S) as [[_ Y]|(k & _ & [[_ Y]|[_ (kp & x & Y & _)]])]; rewrite Y in X; discriminate X.
Qed.
End Modes.
