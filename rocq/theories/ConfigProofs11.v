(** When the program ends while it reads its configuration. *)
From Verif Require Import Base BufferModel MethodModel AddrModel LexModel LexSpec LexProofs4 HexSpec ConfigModel ConfigSpec ConfigProofs ConfigProofs2
  ConfigProofs3 ConfigProofs4 ConfigProofs5 ConfigProofs6 ConfigProofs7 ConfigProofs8.
From Verif Require NameModel.
From Coq Require Import String.
Local Open Scope N_scope.

Lemma exits_before E d cwd l : exits E d cwd l -> forall x, exits E d cwd (x ++ l).
Proof.
  assert (I : forall f l x, includes f l -> includes f (x ++ l)).
  { intros f l0 x [pre post|pre post]; rewrite app_assoc; constructor. }
  intros H x. destruct H; rewrite ?(app_assoc x).
  - apply ex_cipher. assumption.
  - apply ex_mac. assumption.
  - apply ex_protocol. assumption.
  - apply ex_bind. assumption.
  - apply ex_bind_scoped. assumption.
  - apply (ex_deep E cwd f). apply I. assumption.
  - apply (ex_file E d cwd f dir inner); [apply I; assumption|assumption|assumption].
Qed.

(** The same for what the parser sees *)
Definition blamed (E : env) (d : nat) (cwd : bytes) (ts : list tok) : Prop := forall l, ts = map tok_of l -> exits E d cwd l.
Lemma split_toks a ts : forall l, map tok_of a ++ ts = map tok_of l -> exists b, l = a ++ b /\ ts = map tok_of b.
Proof.
  induction a as [|x a IH]; intros l H; [exists l; split; [reflexivity|exact H]|]. destruct l as [|y l]; [discriminate|].
  cbn [map List.app] in H. injection H as H1 H2. apply tok_of_inj in H1. subst y. destruct (IH _ H2) as (b & -> & ->). exists b. split; reflexivity.
Qed.
Lemma blamed_before E d cwd x ts : blamed E d cwd ts -> blamed E d cwd (x ++ ts).
Proof.
  intros H l EQ. symmetry in EQ. apply map_eq_app in EQ. destruct EQ as (l1 & l2 & -> & _ & EQ). apply exits_before. apply H. symmetry. exact EQ.
Qed.
Lemma blamed_here E d cwd a ts : (forall post, exits E d cwd (a ++ post)) -> blamed E d cwd (map tok_of a ++ ts).
Proof. intros H l EQ. destruct (split_toks _ _ _ EQ) as (b & -> & _). apply H. Qed.

(** Never ends the program *)
Definition lasts {A} (m : M A) : Prop := forall s, m s <> Fatal.
(** Only removes tokens from the front *)
Definition eats {A} (m : M A) : Prop := forall s a s', yields m s a s' -> exists x, ps_toks s = x ++ ps_toks s'.
Definition easy {A} (m : M A) : Prop := lasts m /\ eats m.
(** Ends the program for what is in the tokens *)
Definition fair {A} (E : env) (d : nat) (cwd : bytes) (m : M A) : Prop := forall s, m s = Fatal -> blamed E d cwd (ps_toks s).

Lemma easy_bnd {A B} (m : M A) (f : A -> M B) : easy m -> (forall a, easy (f a)) -> easy (bnd m f).
Proof.
  intros [L1 E1] H. split.
  - intros s. unfold bnd. specialize (L1 s). destruct (m s) as [[[a s1]|]| | |]; cbn [bind]; try discriminate; try congruence. apply H.
  - intros s b s' Y. apply bnd_inv in Y. destruct Y as (a & s1 & Y1 & Y2). destruct (E1 _ _ _ Y1) as [x X]. destruct (H a) as [_ E2].
    destruct (E2 _ _ _ Y2) as [y Z]. exists (x ++ y). rewrite X, Z, app_assoc. reflexivity.
Qed.
Lemma easy_same {A} (m : M A) : (forall s, m s <> Fatal) -> (forall s a s', yields m s a s' -> ps_toks s' = ps_toks s) -> easy m.
Proof. intros L T. split; [exact L|]. intros s a s' Y. exists []. rewrite (T _ _ _ Y). reflexivity. Qed.
Lemma easy_ret {A} (a : A) : easy (ret a).
Proof. apply easy_same; [discriminate|]. intros s b s' [= <- <-]. reflexivity. Qed.
Lemma easy_fail {A} : easy (@fail A).
Proof. apply easy_same; [discriminate|]. discriminate. Qed.
Lemma easy_ub {A} : easy (fun _ : pst => @UB (option (A * pst))).
Proof. apply easy_same; discriminate. Qed.
Lemma easy_modify f : easy (modify f).
Proof. apply easy_same; [discriminate|]. intros s b s' [= <- <-]. reflexivity. Qed.
Lemma easy_group : easy get_group.
Proof. apply easy_same; [discriminate|]. intros s b s' [= <- <-]. reflexivity. Qed.
Lemma easy_get_peer : easy get_peer.
Proof. apply easy_same; [discriminate|]. intros s b s' [= <- <-]. reflexivity. Qed.
Lemma easy_set_peer q : easy (set_peer q).
Proof. apply easy_same; [discriminate|]. intros s b s' [= <- <-]. reflexivity. Qed.
Lemma easy_modify_peer f : easy (modify_peer f).
Proof.
  apply easy_same; unfold modify_peer, yields; intros s; destruct (ps_peer s); try discriminate. intros a s' [= <- <-]. reflexivity.
Qed.
Lemma easy_lift {A} (r : res A) : r <> Fatal -> easy (lift r).
Proof.
  intros N. apply easy_same; unfold lift, yields; intros s; destruct r; cbn; try discriminate; try congruence.
Qed.
Lemma easy_next : easy next_tok.
Proof.
  split.
  - intros [ts c g p]. cbn. destruct ts as [|[] ?]; discriminate.
  - intros [ts c g p] a s' Y. apply next_inv in Y. destruct Y as (r & -> & ->). exists [a]. reflexivity.
Qed.
Lemma easy_peek : easy peek.
Proof.
  split.
  - intros [ts c g p]. cbn. destruct ts as [|[] ?]; discriminate.
  - intros [ts c g p] a s' Y. apply peek_inv in Y. destruct Y as (r & -> & -> & _). exists []. reflexivity.
Qed.
Lemma easy_peer_add q : easy (peer_add q).
Proof.
  apply easy_same; unfold peer_add, yields; intros s; destruct (pc_key q); try discriminate; destruct (existsb _ _); try discriminate. intros a s' [= <- <-]. reflexivity.
Qed.
Lemma easy_push n : easy (push_group n).
Proof. apply easy_same; [discriminate|]. intros s b s' [= <- <-]. reflexivity. Qed.
Lemma easy_pop : easy pop_group.
Proof.
  apply easy_same; unfold pop_group, yields; intros s; destruct (nth_error _ _); try discriminate; destruct (gc_parent _); try discriminate.
  intros a s' [= <- <-]. reflexivity.
Qed.

Ltac ez :=
  repeat first
    [ lazymatch goal with |- easy (bnd _ _) => apply easy_bnd; [|intros ?] end
    | apply easy_ret | apply easy_fail | apply easy_next | apply easy_peek | apply easy_group | apply easy_get_peer | apply easy_set_peer
    | apply easy_modify_peer | apply easy_modify | apply easy_peer_add | apply easy_push | apply easy_pop | apply easy_ub
    | lazymatch goal with |- easy (match ?x with _ => _ end) => destruct x end
    | progress unfold key, semicolon, chr, str, uint, opt, boolean, autobool, sync, log_level, maybe_log_level, colon_or_port, port, bind_port, maybe_bind_port,
        maybe_bind_interface, maybe_bind_default, maybe_as, log_stmt, drop_stmt, group_command, add_dir, peer_after, add_remote ].
Lemma easy_on E full cwd : easy (on_stmt E full cwd).
Proof. unfold on_stmt. ez. Qed.
Lemma easy_remote E : easy (peer_remote E).
Proof. unfold peer_remote. ez. Qed.

Lemma fair_easy {A} E d cwd (m : M A) : easy m -> fair E d cwd m.
Proof. intros [L _] s F. destruct (L s F). Qed.
Lemma fair_bnd {A B} E d cwd (m : M A) (f : A -> M B) : fair E d cwd m -> eats m -> (forall a, fair E d cwd (f a)) -> fair E d cwd (bnd m f).
Proof.
  intros F1 E1 F2 s F. unfold bnd in F. destruct (m s) as [[[a s1]|]| | |] eqn:Y; cbn [bind] in F; try discriminate.
  - destruct (E1 s a s1 Y) as [x X]. rewrite X. apply blamed_before. exact (F2 a s1 F).
  - exact (F1 s Y).
Qed.
Lemma fatal_bnd {A B} (m : M A) (f : A -> M B) s : bnd m f s = Fatal -> m s = Fatal \/ exists a s', yields m s a s' /\ f a s' = Fatal.
Proof.
  unfold bnd, yields. destruct (m s) as [[[a s1]|]| | |]; cbn [bind]; intros F; try discriminate; [right; exists a, s1; split; [reflexivity|exact F]|left; reflexivity].
Qed.
Lemma fatal_easy {A B} (m : M A) (f : A -> M B) s : easy m -> bnd m f s = Fatal -> exists a s', yields m s a s' /\ f a s' = Fatal.
Proof. intros [L _] F. apply fatal_bnd in F. destruct F as [F|F]; [destruct (L s F)|exact F]. Qed.

Lemma easy_str : easy str. Proof. ez. Qed.
Lemma easy_key k : easy (key k). Proof. ez. Qed.
Ltac fstep F := lazymatch type of F with bnd _ _ _ = Fatal =>
  let Y := fresh "Y" in apply fatal_easy in F; [destruct F as (? & ? & Y & F)|solve [ez]] end.

Lemma bind_blamed E d cwd c g p ts : (bind_stmt E ;; semicolon) (Pst ts c g p) = Fatal -> blamed E d cwd (TKey Kbind :: ts).
Proof.
  intros F. apply fatal_bnd in F. destruct F as [F|(a & s & _ & F)]; [|destruct (proj1 (ltac:(ez) : easy semicolon) s F)].
  unfold bind_stmt in F. fstep F. apply next_inv in Y. destruct Y as (r & -> & ->).
  assert (G : forall h : bhost, x = tok_of (match h with H4 a => LAddr4 a | H6 a => LAddr6 a | HAny => K "any" end) ->
    (let! p <- maybe_bind_port; let! i <- maybe_bind_interface; let! d <- maybe_bind_default; handle_bind_address E (host_of h) p i d) (Pst r c g p) = Fatal ->
    blamed E d cwd (TKey Kbind :: x :: r)).
  { clear F. intros h -> F. fstep F. apply maybe_bind_port_inv in Y. destruct Y as (op & r1 & -> & -> & P & ->).
    fstep F. apply maybe_bind_interface_inv in Y. destruct Y as (r2 & -> & ->).
    fstep F. apply maybe_bind_default_inv in Y. destruct Y as (od & r3 & -> & -> & ->).
    rewrite handle_bind_eq in F by exact P. destruct (refused E h x) eqn:R; [|discriminate].
    match goal with |- blamed _ _ _ ?l => replace l with (map tok_of (bind_text h op x od) ++ r3) end.
    - apply blamed_here. intros post. apply (ex_bind E d cwd h op x od []). intros DF. apply refused_iff in DF. congruence.
    - unfold bind_text. rewrite !map_app, <- !app_assoc. reflexivity. }
  destruct x as [| | | |a6|a6 i|a4| |k|]; try discriminate F.
  - exact (G (H6 a6) eq_refl F).
  - clear G. fstep F. apply maybe_bind_port_inv in Y. destruct Y as (op & r1 & -> & -> & P & ->).
    fstep F. apply maybe_bind_default_inv in Y. destruct Y as (od & r3 & -> & -> & ->).
    rewrite (handle_bind_eq E (H6 a6)) in F by exact P. destruct (refused E (H6 a6) (Some i)) eqn:R; [|discriminate].
    match goal with |- blamed _ _ _ ?l => replace l with (map tok_of (bind_scoped_text a6 i op od) ++ r3) end.
    + apply blamed_here. intros post. apply (ex_bind_scoped E d cwd a6 i op od []). intros DF. apply refused_iff in DF. congruence.
    + unfold bind_scoped_text. rewrite !map_app, <- !app_assoc. reflexivity.
  - exact (G (H4 a4) eq_refl F).
  - destruct k; try discriminate F. exact (G HAny eq_refl F).
Qed.

Lemma global_blamed E d cwd t ts c g p : global_stmt E cwd t (Pst ts c g p) = Fatal -> blamed E d cwd (t :: ts).
Proof.
  intros F. destruct t as [| | | | | | | |k|]; try discriminate F.
  assert (EZ : easy (global_stmt E cwd (TKey k)) -> blamed E d cwd (TKey k :: ts)) by (intros [L _]; destruct (L _ F)).
  destruct k; try discriminate F; try (apply EZ; cbn [global_stmt]; solve [ez]); clear EZ; cbn [global_stmt] in F.
  - exact (bind_blamed E d cwd c g p ts F).
  - fstep F. repeat prim. fstep F. repeat prim. fstep F. repeat prim. apply fatal_bnd in F.
    destruct F as [F|(a & s & _ & F)]; [|destruct (proj1 (ltac:(ez) : easy semicolon) s F)]. match type of F with context [e_cipher E ?a ?b] => destruct (e_cipher E a b) eqn:C; [discriminate|];
      apply (blamed_here E d cwd [K "cipher"; LStr a; K "use"; LStr b]); intros post; apply (ex_cipher E d cwd a b []); exact C end.
  - fstep F. repeat prim. fstep F. repeat prim. fstep F. repeat prim. apply fatal_bnd in F.
    destruct F as [F|(a & s & _ & F)]; [|destruct (proj1 (ltac:(ez) : easy semicolon) s F)]. match type of F with context [e_mac E ?a ?b] => destruct (e_mac E a b) eqn:C; [discriminate|];
      apply (blamed_here E d cwd [K "mac"; LStr a; K "use"; LStr b]); intros post; apply (ex_mac E d cwd a b []); exact C end.
  - fstep F. repeat prim. apply fatal_bnd in F.
    destruct F as [F|(a & s & _ & F)]; [|destruct (proj1 (ltac:(ez) : easy semicolon) s F)]. destruct (bytes_eqb x (e_protocol E)) eqn:C; [discriminate|].
    apply (blamed_here E d cwd [K "protocol"; LStr x]). intros post. apply (ex_protocol E d cwd x []).
    intros ->. rewrite (proj2 (word_eqb _ _) eq_refl) in C. discriminate.
Qed.

(** * What is eaten *)

Lemma eats_bnd {A B} (m : M A) (f : A -> M B) : eats m -> (forall a, eats (f a)) -> eats (bnd m f).
Proof.
  intros E1 H s b s' Y. apply bnd_inv in Y. destruct Y as (a & s1 & Y1 & Y2). destruct (E1 _ _ _ Y1) as [x X].
  destruct (H a _ _ _ Y2) as [y Z]. exists (x ++ y). rewrite X, Z, app_assoc. reflexivity.
Qed.
Lemma eats_fatal {A} : eats (@fatal A).
Proof. intros s a s' Y. discriminate. Qed.
Lemma eats_call rd cwd f g p : eats (call rd cwd f g p).
Proof. intros [ts c g' p'] a s' Y. apply call_inv in Y. destruct Y as (c' & _ & ->). exists []. reflexivity. Qed.
Lemma eats_lift {A} (r : res A) : eats (lift r).
Proof. intros s a s' Y. unfold yields, lift in Y. destruct r; cbn in Y; try discriminate. injection Y as _ <-. exists []. reflexivity. Qed.
Ltac ea :=
  repeat first
    [ lazymatch goal with |- eats (bnd _ _) => apply eats_bnd; [|intros ?] end
    | lazymatch goal with |- eats (match ?x with _ => _ end) => destruct x end
    | apply eats_fatal | apply eats_call | apply eats_lift
    | apply (proj2 (easy_ret _)) | apply (proj2 easy_fail) | apply (proj2 easy_next) | apply (proj2 easy_peek) | apply (proj2 easy_group)
    | apply (proj2 easy_get_peer) | apply (proj2 (easy_set_peer _)) | apply (proj2 (easy_modify_peer _)) | apply (proj2 (easy_modify _))
    | apply (proj2 (easy_peer_add _)) | apply (proj2 (easy_push _)) | apply (proj2 easy_pop) | apply (proj2 easy_ub)
    | progress unfold key, semicolon, chr, str, uint, opt, boolean, autobool, sync, log_level, maybe_log_level, colon_or_port, port, bind_port, maybe_bind_port,
        maybe_bind_interface, maybe_bind_default, maybe_as, log_stmt, drop_stmt, group_command, add_dir, peer_after, add_remote, bind_stmt, handle_bind_address,
        bind_address, peer_remote ].
Lemma eats_global E cwd t : eats (global_stmt E cwd t).
Proof. unfold global_stmt. ea. Qed.
Lemma eats_peer_stmt E rd cwd t : eats (peer_stmt E rd cwd t).
Proof. unfold peer_stmt. ea. Qed.
Lemma eats_include E rd cwd : eats (include_stmt E rd cwd).
Proof. unfold include_stmt. ea. Qed.
Lemma eats_peer_block E rd cwd fuel : eats (peer_conf_block E fuel rd cwd).
Proof.
  induction fuel as [|f IH]; cbn [peer_conf_block]; [apply (proj2 easy_ub)|]. apply eats_bnd; [apply (proj2 easy_peek)|]. intros t.
  destruct (at_end t); [apply (proj2 (easy_ret _))|]. apply eats_bnd; [apply (proj2 easy_next)|]. intros _. apply eats_bnd; [apply eats_peer_stmt|]. intros _. exact IH.
Qed.
Lemma eats_stmt E rd cwd f full t : eats (block E f false rd cwd) -> eats (stmt_m E f full rd cwd t).
Proof.
  intros EB. assert (GL : eats (if full then global_stmt E cwd t else fail)) by (destruct full; [apply eats_global|apply (proj2 easy_fail)]).
  unfold stmt_m. destruct t as [| | | | | | | |k|]; try exact GL. destruct k; try exact GL; clear GL.
  - apply eats_include.
  - ea.
  - apply (proj2 (easy_on E full cwd)).
  - apply eats_bnd; [apply (proj2 easy_next)|]. intros t. destruct t as [| | |n| | | | |k|]; try apply (proj2 easy_fail).
    + repeat (apply eats_bnd; [solve [ea | apply eats_peer_block]|intros ?]). ea.
    + destruct k; try apply (proj2 easy_fail); [|ea]. repeat (apply eats_bnd; [solve [exact EB | ea]|intros ?]). ea.
Qed.
Lemma eats_block E rd cwd : forall fuel full, eats (block E fuel full rd cwd).
Proof.
  induction fuel as [|f IH]; intros full; [apply (proj2 easy_ub)|]. rewrite block_step. apply eats_bnd; [apply (proj2 easy_peek)|]. intros t.
  destruct (at_end t); [apply (proj2 (easy_ret _))|]. apply eats_bnd; [apply (proj2 easy_next)|]. intros _.
  apply eats_bnd; [apply eats_stmt; apply IH|]. intros _. apply IH.
Qed.

(** * Files *)

Definition fair_reader (E : env) (d : nat) (rd : reader) : Prop := forall cwd f g p c, rd cwd f g p c = Fatal ->
  d = O \/ exists d' dir inner, d = S d' /\ file_is E cwd f dir inner /\ exits E d' dir inner.

Lemma call_fatal rd cwd f g p s : call rd cwd f g p s = Fatal -> rd cwd f g p (ps_conf s) = Fatal.
Proof. unfold call. destruct (rd cwd f g p (ps_conf s)) as [[[? ?]|]| | |]; cbn; try discriminate. reflexivity. Qed.
Lemma fair_includes E d cwd f l : (d = O \/ exists d' dir inner, d = S d' /\ file_is E cwd f dir inner /\ exits E d' dir inner) -> includes f l -> exits E d cwd l.
Proof. intros [->|(d' & dir & inner & -> & FI & X)] I; [exact (ex_deep E cwd f l I)|exact (ex_file E d' cwd f dir inner l I FI X)]. Qed.
Lemma fatal_easy_after {A B} (m : M A) (f : A -> M B) s : (forall a, lasts (f a)) -> bnd m f s = Fatal -> m s = Fatal.
Proof. intros L F. apply fatal_bnd in F. destruct F as [F|(a & s' & _ & F)]; [exact F|destruct (L a s' F)]. Qed.

Lemma peer_stmt_blamed E d rd cwd t ts c g p : fair_reader E d rd -> peer_stmt E rd cwd t (Pst ts c g p) = Fatal -> blamed E d cwd (t :: ts).
Proof.
  intros FR F. destruct t as [| | | | | | | |k|]; try discriminate F.
  assert (EZ : easy (peer_stmt E rd cwd (TKey k)) -> blamed E d cwd (TKey k :: ts)) by (intros [L _]; destruct (L _ F)).
  destruct k; try discriminate F; try (apply EZ; cbn [peer_stmt]; solve [ez | apply easy_bnd; [apply easy_remote|intros ?; ez]]).
  - clear EZ. cbn [peer_stmt] in F. fstep F. repeat prim. fstep F. repeat prim. fstep F. repeat prim.
    apply fatal_easy_after in F; [|intros q; apply easy_bnd; [apply easy_set_peer|intros ?; ez]]. apply call_fatal in F. apply FR in F.
    match goal with |- blamed _ _ _ (_ :: TStr ?f :: _) => apply (blamed_here E d cwd [K "include"; LStr f]); intros post; apply (fair_includes _ _ _ f _ F); apply (inc_file f []) end.
  - apply EZ. cbn [peer_stmt]. ez. apply easy_lift. rewrite key_of_ok. discriminate.
Qed.
Lemma peer_block_fair E d rd cwd : fair_reader E d rd -> forall fuel, fair E d cwd (peer_conf_block E fuel rd cwd).
Proof.
  intros FR. induction fuel as [|f IH]; intros [ts c g p] F; [discriminate F|]. cbn [peer_conf_block] in F. fstep F.
  apply peek_inv in Y. destruct Y as (r & -> & -> & _). destruct (at_end x); [discriminate F|]. fstep F. apply next_inv in Y. destruct Y as (r' & X & ->). injection X as <- <-.
  apply fatal_bnd in F. destruct F as [F|(a & s' & Y & F)].
  - exact (peer_stmt_blamed E d rd cwd _ _ _ _ _ FR F).
  - apply IH in F. destruct (eats_peer_stmt E rd cwd x _ _ _ Y) as [y Z]. cbn [ps_toks] in *. rewrite Z. apply (blamed_before E d cwd (x :: y)). exact F.
Qed.
Lemma include_blamed E d rd cwd ts c g p : fair_reader E d rd -> include_stmt E rd cwd (Pst ts c g p) = Fatal -> blamed E d cwd (TKey Kinclude :: ts).
Proof.
  intros FR F. unfold include_stmt in F. fstep F. apply next_inv in Y. destruct Y as (r & -> & ->). destruct x as [| | |f| | | | |k|]; try discriminate F.
  - fstep F. repeat prim. apply fatal_easy_after in F; [|intros q; apply (ltac:(ez) : easy semicolon)]. apply call_fatal in F. apply FR in F.
    apply (blamed_here E d cwd [K "include"; LStr f]). intros post. apply (fair_includes _ _ _ f _ F). apply (inc_file f []).
  - destruct k; try discriminate F.
    + fstep F. repeat prim. fstep F. fstep F. apply maybe_as_inv in Y. destruct Y as (r1 & -> & ->). repeat prim.
      apply fatal_easy_after in F; [|intros q; apply easy_bnd; [destruct q; [apply easy_peer_add|apply easy_ub]|intros ?; ez]]. apply call_fatal in F. apply FR in F.
      match goal with |- blamed _ _ _ (_ :: _ :: TStr ?f :: _) => apply (blamed_here E d cwd [K "include"; K "peer"; LStr f]); intros post; apply (fair_includes _ _ _ f _ F); apply (inc_peer f []) end.
    + exfalso. assert (EZ : easy (key Kfrom ;; let! s <- str; let! g <- get_group; add_dir E cwd s g ;; semicolon)) by ez. exact (proj1 EZ _ F).
Qed.
Lemma stmt_blamed E d rd cwd f full t ts c g p : fair_reader E d rd -> fair E d cwd (block E f false rd cwd) ->
  stmt_m E f full rd cwd t (Pst ts c g p) = Fatal -> blamed E d cwd (t :: ts).
Proof.
  intros FR FB F.
  assert (GL : (if full then global_stmt E cwd t else fail) (Pst ts c g p) = Fatal -> blamed E d cwd (t :: ts)).
  { destruct full; [apply global_blamed|discriminate]. }
  unfold stmt_m in F. destruct t as [| | | | | | | |k|]; try exact (GL F). destruct k; try exact (GL F); clear GL.
  - exact (include_blamed E d rd cwd _ _ _ _ FR F).
  - exfalso. revert F. match goal with |- ?m _ = _ -> _ => assert (EZ : easy m) by ez; apply EZ end.
  - exfalso. exact (proj1 (easy_on E full cwd) _ F).
  - fstep F. apply next_inv in Y. destruct Y as (r & -> & ->). apply (blamed_before E d cwd [TKey Kpeer; x]).
    destruct x as [| | |name| | | | |k|]; try discriminate F.
    + refine ((_ : fair E d cwd _) _ F). apply fair_bnd; [apply fair_easy; ez|ea|intros ?].
      apply fair_bnd; [apply fair_easy; ez|ea|intros ?]. apply fair_bnd; [apply fair_easy; ez|ea|intros ?].
      apply fair_bnd; [apply peer_block_fair; exact FR|apply eats_peer_block|intros ?]. apply fair_easy. ez.
    + destruct k; try discriminate F.
      * refine ((_ : fair E d cwd _) _ F). apply fair_bnd; [apply fair_easy; ez|ea|intros ?].
        apply fair_bnd; [apply fair_easy; ez|ea|intros ?]. apply fair_bnd; [apply fair_easy; ez|ea|intros ?].
        apply fair_bnd; [exact FB|apply eats_block|intros ?]. apply fair_easy. ez.
      * exfalso. revert F. match goal with |- ?m _ = _ -> _ => assert (EZ : easy m) by ez; apply EZ end.
Qed.
Lemma block_fair E d rd cwd : fair_reader E d rd -> forall fuel full, fair E d cwd (block E fuel full rd cwd).
Proof.
  intros FR. induction fuel as [|f IH]; intros full [ts c g p] F; [discriminate F|]. rewrite block_step in F. fstep F.
  apply peek_inv in Y. destruct Y as (r & -> & -> & _). destruct (at_end x); [discriminate F|]. fstep F. apply next_inv in Y. destruct Y as (r' & X & ->). injection X as <- <-.
  apply fatal_bnd in F. destruct F as [F|(a & s' & Y & F)].
  - exact (stmt_blamed E d rd cwd f full _ _ _ _ _ FR (IH false) F).
  - apply IH in F. destruct (eats_stmt E rd cwd f full x (eats_block E rd cwd f false) _ _ _ Y) as [y Z]. cbn [ps_toks] in *. rewrite Z.
    apply (blamed_before E d cwd (x :: y)). exact F.
Qed.

Lemma read_toks_fatal E d rd cwd contents sched err g p c : sane E -> fair_reader E d rd ->
  read_toks E rd cwd (contents, sched, err) g p c = Fatal ->
  exists items, lex_file (e_pton4 E) (e_pton6 E) contents sched err = Ok items /\ exits E d cwd (tokens items).
Proof.
  intros RS FR F. unfold read_toks in F. destruct (lex_file_exact _ _ (proj1 RS) (proj2 RS) contents sched err) as (items & LX & _).
  rewrite LX in *. cbn [bind] in F. exists items. split; [reflexivity|]. unfold has_parent in F. destruct (nth_error (c_groups c) g); [|discriminate]. cbn [bind] in F.
  rewrite items_toks in F. destruct p as [q|].
  - match type of F with context [peer_conf_block E ?n rd cwd ?s] => pose proof (peer_block_fair E d rd cwd FR n s) as B; destruct (peer_conf_block E n rd cwd s) as [[[u s1]|]| | |] end;
      cbn [bind] in F; try discriminate; try (destruct (ps_toks s1) as [|[] [|? ?]]; discriminate).
    exact (B eq_refl _ eq_refl).
  - match type of F with context [block E ?n ?fl rd cwd ?s] => pose proof (block_fair E d rd cwd FR n fl s) as B; destruct (block E n fl rd cwd s) as [[[u s1]|]| | |] end;
      cbn [bind] in F; try discriminate; try (destruct (ps_toks s1) as [|[] [|? ?]]; discriminate).
    exact (B eq_refl _ eq_refl).
Qed.

Lemma read_file_fair E d : sane E -> fair_reader E d (read_file E d).
Proof.
  intros RS. induction d as [|d IH]; intros cwd f g p c F; [left; reflexivity|]. right. cbn [read_file] in F.
  destruct (e_file E cwd f) as [[[contents sched] err]|] eqn:EF; [|discriminate]. destruct (e_cd E cwd _) as [dir|] eqn:CD; [|discriminate].
  apply (read_toks_fatal E d _ _ _ _ _ _ _ _ RS IH) in F. destruct F as (items & LX & X).
  exists d, dir, (tokens items). split; [reflexivity|]. split; [|exact X]. exists contents, sched, err, items. repeat split; assumption.
Qed.
Lemma read_config_fatal E cwd name c : sane E -> read_config E cwd name c = Fatal -> exists dir l, main_is E cwd name dir l /\ exits E 9 dir l.
Proof.
  intros RS F. unfold read_config in F. destruct name as [name|].
  - destruct (read_file E max_depth cwd name 0%nat None c) as [[[? ?]|]| | |] eqn:R; try discriminate F.
    apply (read_file_fair E max_depth RS) in R. destruct R as [R|(d & dir & inner & X & FI & EX)]; [discriminate R|]. injection X as <-.
    exists dir, inner. split; [exact FI|exact EX].
  - destruct (e_stdin E) as [[contents sched] err] eqn:SI.
    match type of F with (do r <- ?m; _) = _ => destruct m as [[[? ?]|]| | |] eqn:R; try discriminate F end.
    apply (read_toks_fatal E 9 _ _ _ _ _ _ _ _ RS (read_file_fair E 9 RS)) in R. destruct R as (items & LX & X).
    exists cwd, (tokens items). split; [|exact X]. split; [reflexivity|]. exists contents, sched, err, items. repeat split; assumption.
Qed.

(** A file that begins by including itself *)
Lemma bnd_yields A B (m : M A) (k : A -> M B) s a s' : yields m s a s' -> bnd m k s = k a s'.
Proof. intros Y. unfold bnd. unfold yields in Y. rewrite Y. reflexivity. Qed.
Lemma bnd_fatal A B (m : M A) (k : A -> M B) s : m s = Fatal -> bnd m k s = Fatal.
Proof. intros Y. unfold bnd. rewrite Y. reflexivity. Qed.
Lemma include_fatal E rd cwd f r c g p : rd cwd f g None c = Fatal -> include_stmt E rd cwd (Pst (TStr f :: r) c g p) = Fatal.
Proof. intros R. unfold include_stmt, bnd, call. cbn. rewrite R. reflexivity. Qed.
Lemma self_include E cwd f l : file_is E cwd f cwd (K "include" :: LStr f :: l) ->
  forall d g c, (g < List.length (c_groups c))%nat -> read_file E d cwd f g None c = Fatal.
Proof.
  intros (contents & sched & err & items & EF & CD & LX & T). induction d as [|d IH]; intros g c G; [reflexivity|]. cbn [read_file]. rewrite EF, CD.
  unfold read_toks. rewrite LX. cbn [bind]. destruct (has_parent_total c g G) as [b HP]. rewrite HP. cbn [bind]. rewrite items_toks, T.
  rewrite block_step. cbn [map]. rewrite tk_include.
  erewrite bnd_yields by (apply peek_ok; intros; discriminate). cbv beta iota delta [at_end].
  erewrite bnd_yields by (apply next_ok; intros; discriminate). cbv beta.
  rewrite bnd_fatal by (apply include_fatal; exact (IH g c G)). reflexivity.
Qed.
