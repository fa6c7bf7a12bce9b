(** Options and command lines. *)
From Verif Require Import Base BufferModel MethodModel AddrModel LexModel LexSpec HexSpec ConfigModel ConfigSpec ConfigProofs ConfigProofs2 ConfigProofs3
  ConfigProofs5 ConfigProofs6 ConfigProofs8 ConfigProofs9 ConfigProofs10 ConfigProofs12 OptionsModel OptionsSpec OptionsProofs.
From Verif Require HandshakeProofs2 NameModel.
From Coq Require Import String.
Local Open Scope N_scope.

(** * The effects, one by one *)

Definition app_o (E : env) (x : oeffect) (o : ost) : option ost :=
  let c := o_conf o in
  match x with
  | OE e => option_map (fun c => set_conf c o) (app E e c)
  | OIdent s => Some (set_conf (set_c_ident s c) o)
  | OStdin => Some (Ost c true (o_daemon o) (o_pid o) (o_verify o) (o_generate o) (o_show o) (o_machine o))
  | ODaemon => Some (Ost c (o_stdin o) true (o_pid o) (o_verify o) (o_generate o) (o_show o) (o_machine o))
  | OPid f => Some (Ost c (o_stdin o) (o_daemon o) (Some f) (o_verify o) (o_generate o) (o_show o) (o_machine o))
  | OVerify => Some (Ost c (o_stdin o) (o_daemon o) (o_pid o) true (o_generate o) (o_show o) (o_machine o))
  | OGenerate => Some (Ost c (o_stdin o) (o_daemon o) (o_pid o) (o_verify o) true false (o_machine o))
  | OShow => Some (Ost c (o_stdin o) (o_daemon o) (o_pid o) (o_verify o) false true (o_machine o))
  | OMachine => Some (Ost c (o_stdin o) (o_daemon o) (o_pid o) (o_verify o) (o_generate o) (o_show o) true)
  end.
Fixpoint app_os (E : env) (xs : list oeffect) (o : ost) : option ost :=
  match xs with [] => Some o | x :: r => match app_o E x o with Some o => app_os E r o | None => None end end.
Lemma app_os_app E a b o : app_os E (a ++ b) o = match app_os E a o with Some o => app_os E b o | None => None end.
Proof. revert o. induction a as [|e a IH]; intros o; cbn [app_os List.app]; [reflexivity|]. destruct (app_o E e o); [apply IH|reflexivity]. Qed.
Lemma set_conf_same o : set_conf (o_conf o) o = o.
Proof. destruct o. reflexivity. Qed.
Lemma app_os_conf E es : forall o, app_os E (map OE es) o = option_map (fun c => set_conf c o) (app_all E es (o_conf o)).
Proof.
  induction es as [|e es IH]; intros o; cbn [map app_os app_all app_o option_map]; [rewrite set_conf_same; reflexivity|].
  destruct (app E e (o_conf o)) as [c|]; [|reflexivity]. cbn [option_map]. rewrite IH. cbn. destruct (app_all E es c); reflexivity.
Qed.
Lemma app_o_wfc E x o o' : app_o E x o = Some o' -> wfc (o_conf o) -> wfc (o_conf o') /\
  (List.length (c_groups (o_conf o')) = List.length (c_groups (o_conf o)) + groups (effects [x]))%nat /\ o_stdin o' = o_stdin o || reads_stdin [x].
Proof.
  intros A W. destruct x; cbn [app_o] in A; try (injection A as <-; split; [exact W|split; [cbn; lia|cbn; rewrite ?orb_false_r, ?orb_true_r; reflexivity]]).
  destruct (app E e (o_conf o)) as [c|] eqn:A1; [|discriminate]. injection A as <-. split; [exact (app_wfc E _ _ _ A1 W)|].
  destruct (app_groups E _ _ _ A1) as [L _]. split; [exact L|]. cbn. rewrite orb_false_r. reflexivity.
Qed.
Lemma effects_app a b : effects (a ++ b) = effects a ++ effects b.
Proof. apply flat_map_app. Qed.
Lemma app_os_wfc E xs : forall o o', app_os E xs o = Some o' -> wfc (o_conf o) -> wfc (o_conf o') /\
  (List.length (c_groups (o_conf o')) = List.length (c_groups (o_conf o)) + groups (effects xs))%nat /\ o_stdin o' = o_stdin o || reads_stdin xs.
Proof.
  induction xs as [|x xs IH]; intros o o' A W; cbn [app_os] in A.
  - injection A as <-. split; [exact W|]. split; [cbn; lia|]. cbn. rewrite orb_false_r. reflexivity.
  - destruct (app_o E x o) as [o1|] eqn:A1; [|discriminate]. destruct (app_o_wfc E x o o1 A1 W) as (W1 & L1 & S1). destruct (IH o1 o' A W1) as (W2 & L2 & S2).
    split; [exact W2|]. change (x :: xs) with ([x] ++ xs). rewrite effects_app, groups_app. split; [lia|]. rewrite S2, S1. cbn.
    destruct x; cbn; rewrite ?orb_false_r, ?orb_true_r; reflexivity.
Qed.

(** * The standard input and files *)

Lemma lex_nothing E : lex_file (e_pton4 E) (e_pton6 E) [] [] false = Ok [(LEof, (1, 0), (1, 0))].
Proof. reflexivity. Qed.
Lemma text_nil body : text body = [] -> body = [].
Proof.
  destruct body as [|s body]; [reflexivity|]. intros H. exfalso. unfold text in H. cbn in H. apply app_eq_nil in H. destruct H as [H _].
  assert (X : stmt_text s <> []); [|exact (X H)]. clear. destruct s; cbn; try discriminate.
  - intros H. unfold setting_text in H. apply app_eq_nil in H. destruct H. discriminate.
  - destruct name; discriminate.
Qed.
Lemma stdin_again E cwd c c' q : wfc c ->
  (read_toks E (read_file E (max_depth - 1)) cwd ([], [], false) 0%nat None c = Ok (Some (c', q)) <-> c' = c /\ q = None).
Proof.
  intros W. destruct (readers E (max_depth - 1)) as [PR GR]. rewrite (read_group_is E _ _ cwd [] [] false 0%nat c c' q PR GR W (wfc_pos c W)). split.
  - intros (items & inner & es & LX & T & M & A & ->). rewrite lex_nothing in LX. injection LX as <-. cbn in T.
    destruct (text inner) as [|x l] eqn:TX; [|destruct l; discriminate]. apply text_nil in TX. subst inner. inversion M; subst. cbn in A. injection A as <-. split; reflexivity.
  - intros [-> ->]. exists [(LEof, (1, 0), (1, 0))], [], []. split; [apply lex_nothing|]. split; [reflexivity|]. split; [constructor|]. split; reflexivity.
Qed.
Lemma stdin_is E cwd c c' q : wfc c ->
  (read_toks E (read_file E (max_depth - 1)) cwd (e_stdin E) 0%nat None c = Ok (Some (c', q)) <->
   q = None /\ exists dir body es, main_is E cwd None dir (text body ++ [LEof]) /\ means E 9 dir 0 (List.length (c_groups c)) body es /\ app_all E es c = Some c').
Proof.
  intros W. destruct (readers E (max_depth - 1)) as [PR GR]. destruct (e_stdin E) as [[contents sched] err] eqn:SI.
  rewrite (read_group_is E _ _ cwd contents sched err 0%nat c c' q PR GR W (wfc_pos c W)). unfold main_is. split.
  - intros (items & inner & es & LX & T & M & A & ->). split; [reflexivity|]. exists cwd, inner, es. split; [|split; assumption]. split; [reflexivity|].
    exists contents, sched, err, items. repeat split; assumption.
  - intros (-> & dir & body & es & (-> & co & sc & er & items & X & LX & T) & M & A). rewrite SI in X. injection X as <- <- <-.
    exists items, body, es. repeat split; assumption.
Qed.
Lemma peer_file_is E cwd f c c' q : wfc c ->
  (read_file E max_depth cwd f 0%nat (Some (new_peer None 0)) c = Ok (Some (c', q)) <->
   exists dir inner ps, file_is E cwd f dir (peer_text inner ++ [LEof]) /\ peer_means E 9 dir inner ps /\ c' = c /\ q = Some (app_psets E ps (new_peer None 0))).
Proof.
  intros W. destruct (readers E max_depth) as [PR _]. rewrite (PR cwd f 0%nat (new_peer None 0) c c' q (wfc_pos c W)). split.
  - intros (d' & dir & inner & ps & D & F & M & -> & ->). injection D as <-. exists dir, inner, ps. repeat split; assumption.
  - intros (dir & inner & ps & F & M & -> & ->). exists 9%nat, dir, inner, ps. repeat split; assumption.
Qed.

(** * Names *)

Lemma bytes_refl a : bytes_eqb a a = true.
Proof. destruct (HandshakeProofs2.bytes_eqb_spec a a); congruence. Qed.
Lemma lookup_some E B a k : lookup E B a = Some k -> exists ns b, In (ns, k, b) (table E B) /\ In a ns /\ b = true.
Proof.
  unfold lookup. destruct (find _ _) as [[[ns k'] b]|] eqn:F; [|discriminate]. cbn. intros [= ->]. apply find_some in F. destruct F as [I F]. cbn in F.
  apply andb_prop in F. destruct F as [F T]. apply existsb_exists in F. destruct F as (x & X & Q). exists ns, b. split; [exact I|]. split; [|exact T].
  destruct (HandshakeProofs2.bytes_eqb_spec a x); [subst; exact X|discriminate].
Qed.
Lemma level_iff v l : parse_log_level v = Ok l <-> v = level_name l.
Proof.
  unfold parse_log_level. split.
  - repeat (match goal with |- context [bytes_eqb v ?x] => destruct (HandshakeProofs2.bytes_eqb_spec v x) end; [intros [= <-]; assumption|]). discriminate.
  - intros ->. destruct l; reflexivity.
Qed.
Lemma mode_iff v c c' : option_mode v c = Ok c' <-> exists m, v = mode_text m /\ c' = set_c_mode m c.
Proof.
  unfold option_mode. split.
  - repeat (match goal with |- context [bytes_eqb v ?x] => destruct (HandshakeProofs2.bytes_eqb_spec v x) end; [intros [= <-]; eexists; split; [|reflexivity]; assumption|]). discriminate.
  - intros (m & -> & ->). destruct m; reflexivity.
Qed.
Lemma mtu_iff v c c' : (do n <- number 576 65535 v; Ok (set_c_mtu (n mod 2 ^ 16) c)) = Ok c' <-> exists k, number_text v k /\ 576 <= k <= 65535 /\ c' = set_c_mtu k c.
Proof.
  split.
  - destruct (number 576 65535 v) as [k| | |] eqn:NM; try discriminate. cbn [bind]. intros [= <-]. apply number_iff in NM; [|lia|lia]. destruct NM as [T R].
    exists k. split; [exact T|]. split; [lia|]. rewrite N.mod_small by lia. reflexivity.
  - intros (k & T & R & ->). assert (NM : number 576 65535 v = Ok k) by (apply number_iff; [lia|lia|]; split; [exact T|lia]). rewrite NM. cbn [bind].
    rewrite N.mod_small by lia. reflexivity.
Qed.
Lemma stderr_is E dir l c : app_set E dir (SLogStderr (Some l)) c = set_c_stderr (Some l) c.
Proof. destruct c. reflexivity. Qed.
Lemma syslog_is E dir l c : app_set E dir (SLogSyslog None (Some l)) c = set_c_syslog (Some l) c.
Proof. reflexivity. Qed.

(** * One option *)

Lemma conf_only o (r : res conf) o' : (do c <- r; Ok (set_conf c o)) = Ok o' <-> exists c, r = Ok c /\ o' = set_conf c o.
Proof. destruct r; cbn; split; try discriminate; try (intros (c & X & _); discriminate X); [intros [= <-]; eexists; split; reflexivity|intros (c' & [= <-] & ->); reflexivity]. Qed.

Section One.
Context (E : env) (B : obuild) (cwd : bytes).

Lemma config_iff v o o' : wfc (o_conf o) ->
  (option_config E cwd v o = Ok o' <->
   (v <> w "-" /\ exists dir body es, main_is E cwd (Some v) dir (text body ++ [LEof]) /\ means E 9 dir 0 (List.length (c_groups (o_conf o))) body es /\
      app_os E (map OE es) o = Some o') \/
   (v = w "-" /\ o_stdin o = false /\ exists dir body es, main_is E cwd None dir (text body ++ [LEof]) /\
      means E 9 dir 0 (List.length (c_groups (o_conf o))) body es /\ app_os E (OStdin :: map OE es) o = Some o') \/
   (v = w "-" /\ o_stdin o = true /\ app_os E [OStdin] o = Some o')).
Proof.
  intros W. unfold option_config. destruct (HandshakeProofs2.bytes_eqb_spec v (w "-")) as [->|NE].
  - destruct (o_stdin o) eqn:SI.
    + split.
      * destruct (read_toks _ _ _ _ _ _ _) as [[[c q]|]| | |] eqn:R; try discriminate. cbn [bind]. intros [= <-]. right. right. split; [reflexivity|]. split; [reflexivity|].
        apply stdin_again in R; [|exact W]. destruct R as [-> ->]. cbn. reflexivity.
      * intros [[X _]|[(_ & X & _)|(_ & _ & X)]]; [contradiction|discriminate|]. cbn in X. injection X as <-.
        rewrite (proj2 (stdin_again E cwd (o_conf o) (o_conf o) None W)); [|split; reflexivity]. reflexivity.
    + split.
      * destruct (read_toks _ _ _ _ _ _ _) as [[[c q]|]| | |] eqn:R; try discriminate. cbn [bind]. intros [= <-]. right. left. split; [reflexivity|]. split; [reflexivity|].
        apply stdin_is in R; [|exact W]. destruct R as (-> & dir & body & es & MI & M & A). exists dir, body, es. split; [exact MI|]. split; [exact M|].
        cbn [app_os app_o]. rewrite app_os_conf. cbn [o_conf]. rewrite A. reflexivity.
      * intros [[X _]|[(_ & _ & dir & body & es & MI & M & A)|(_ & X & _)]]; [contradiction| |discriminate]. cbn [app_os app_o] in A. rewrite app_os_conf in A. cbn [o_conf] in A.
        destruct (app_all E es (o_conf o)) as [c|] eqn:AA; [|discriminate]. injection A as <-.
        rewrite (proj2 (stdin_is E cwd (o_conf o) c None W)); [reflexivity|]. split; [reflexivity|]. exists dir, body, es. split; [exact MI|]. split; [exact M|]. exact AA.
  - split.
    + destruct (read_config E cwd (Some v) (o_conf o)) as [[c|]| | |] eqn:R; try discriminate. cbn [bind]. intros [= <-]. left. split; [exact NE|].
      apply read_config_is in R; [|exact W]. destruct R as (dir & body & es & MI & M & A). exists dir, body, es. split; [exact MI|]. split; [exact M|].
      rewrite app_os_conf, A. reflexivity.
    + intros [(_ & dir & body & es & MI & M & A)|[(X & _)|(X & _)]]; [|contradiction|contradiction]. rewrite app_os_conf in A.
      destruct (app_all E es (o_conf o)) as [c|] eqn:AA; [|discriminate]. injection A as <-.
      rewrite (proj2 (read_config_is E cwd (Some v) (o_conf o) c W)); [reflexivity|]. exists dir, body, es. split; [exact MI|]. split; [exact M|]. exact AA.
Qed.
Lemma peer_iff v c c' : wfc c ->
  (option_config_peer E cwd v c = Ok c' <->
   exists dir inner ps, file_is E cwd v dir (peer_text inner ++ [LEof]) /\ peer_means E 9 dir inner ps /\ app E (EPeer None 0 ps) c = Some c').
Proof.
  intros W. unfold option_config_peer. split.
  - destruct (read_file _ _ _ _ _ _ _) as [[[c1 q]|]| | |] eqn:R; try discriminate. cbn [bind]. apply peer_file_is in R; [|exact W].
    destruct R as (dir & inner & ps & F & M & -> & ->). unfold run_m. rewrite peer_add_eq. intros X. exists dir, inner, ps. split; [exact F|]. split; [exact M|]. cbn [app].
    destruct (app_peer _ c) as [c2|]; [|discriminate]. cbn in X. injection X as <-. reflexivity.
  - intros (dir & inner & ps & F & M & A). rewrite (proj2 (peer_file_is E cwd v c c (Some (app_psets E ps (new_peer None 0))) W)).
    + cbn [bind]. unfold run_m. rewrite peer_add_eq. cbn [app] in A. rewrite A. reflexivity.
    + exists dir, inner, ps. split; [exact F|]. split; [exact M|]. split; reflexivity.
Qed.
Lemma dir_is v c : run_m (add_dir E cwd v 0) c = Ok (match e_cd E cwd v with Some d => update_group 0 (fun x => set_gc_dirs (d :: gc_dirs x) x) c | None => c end).
Proof. unfold run_m, add_dir. destruct (e_cd E cwd v); reflexivity. Qed.
End One.
