(** Files that include files. *)
From Verif Require Import Base BufferModel MethodModel AddrModel LexModel LexSpec HexSpec ConfigModel ConfigSpec ConfigProofs ConfigProofs2 ConfigProofs3
  ConfigProofs4 ConfigProofs5 ConfigProofs6 ConfigProofs7.
From Coq Require Import String.
Local Open Scope N_scope.

Lemma items_toks (items : list (lexeme * pos * pos)) : map (fun i => tok_of (fst (fst i))) items = map tok_of (tokens items).
Proof. unfold tokens. rewrite map_map. reflexivity. Qed.
Lemma has_parent_is c g : wfc c -> (g < List.length (c_groups c))%nat -> has_parent c g = Ok (negb (Nat.eqb g 0)).
Proof.
  intros [W0 W] G. unfold has_parent. destruct g as [|g].
  - unfold parent_at in W0. destruct (nth_error (c_groups c) 0); [|discriminate]. injection W0 as ->. reflexivity.
  - destruct (W (S g) ltac:(lia)) as [x P]. unfold parent_at in P. destruct (nth_error (c_groups c) (S g)); [|discriminate]. injection P as ->. reflexivity.
Qed.
Lemma has_parent_total c g : (g < List.length (c_groups c))%nat -> exists b, has_parent c g = Ok b.
Proof.
  intros G. unfold has_parent. destruct (nth_error (c_groups c) g) eqn:X; [eexists; reflexivity|]. apply nth_error_None in X. lia.
Qed.
Lemma text_of body r items : map tok_of (tokens items) = map tok_of body ++ r -> r = [TEof] -> tokens items = body ++ [LEof].
Proof. intros H ->. apply toks_inj. rewrite map_app. exact H. Qed.

Lemma read_peer_is E d rd cwd contents sched err g q c c' q' : peer_reader E d rd -> (g < List.length (c_groups c))%nat ->
  (read_toks E rd cwd (contents, sched, err) g (Some q) c = Ok (Some (c', q')) <->
   exists items inner ps, lex_file (e_pton4 E) (e_pton6 E) contents sched err = Ok items /\ tokens items = peer_text inner ++ [LEof] /\
     peer_means E d cwd inner ps /\ c' = c /\ q' = Some (app_psets E ps (set_pc_group g q))).
Proof.
  intros PR G. unfold read_toks. destruct (has_parent_total c g G) as [b ->]. split.
  - destruct (lex_file _ _ _ _ _) as [items| | |] eqn:LX; try discriminate. cbn [bind]. rewrite items_toks.
    destruct (peer_conf_block _ _ _ _ _) as [[[u s]|]| | |] eqn:B; try discriminate. cbn [bind].
    destruct (peer_block_sound E d rd cwd PR _ _ c g (set_pc_group g q) u s G eq_refl B) as (body & ps & r & T & M & -> & _). cbn [ps_toks ps_conf ps_peer].
    destruct r as [|[] [|? ?]]; try discriminate. intros [= <- <-]. exists items, body, ps. split; [reflexivity|].
    split; [exact (text_of _ _ _ T eq_refl)|]. split; [exact M|split; reflexivity].
  - intros (items & inner & ps & -> & T & M & -> & ->). cbn [bind]. rewrite items_toks, T, map_app. change (map tok_of [LEof]) with [TEof].
    pose proof (peer_block_ok E d rd cwd PR inner (S (List.length (map tok_of (peer_text inner) ++ [TEof]))) ps [TEof] c g (set_pc_group g q) G eq_refl M eq_refl) as B.
    unfold yields in B. rewrite B by (rewrite app_length, map_length; cbn; lia). reflexivity.
Qed.
Lemma read_group_is E d rd cwd contents sched err g c c' q' : peer_reader E d rd -> group_reader E d rd -> wfc c -> (g < List.length (c_groups c))%nat ->
  (read_toks E rd cwd (contents, sched, err) g None c = Ok (Some (c', q')) <->
   exists items inner es, lex_file (e_pton4 E) (e_pton6 E) contents sched err = Ok items /\ tokens items = text inner ++ [LEof] /\
     means E d cwd g (List.length (c_groups c)) inner es /\ app_all E es c = Some c' /\ q' = None).
Proof.
  intros PR GR W G. unfold read_toks. rewrite (has_parent_is c g W G). split.
  - destruct (lex_file _ _ _ _ _) as [items| | |] eqn:LX; try discriminate. cbn [bind]. rewrite items_toks, negb_involutive.
    destruct (block _ _ _ _ _ _) as [[[u s]|]| | |] eqn:B; try discriminate. cbn [bind].
    destruct (block_sound E d rd cwd PR GR _ _ _ c g None u s W G eq_refl B) as (body & es & r & c1 & p1 & T & M & A & -> & _). cbn [ps_toks ps_conf ps_peer].
    destruct r as [|[] [|? ?]]; try discriminate. intros [= <- <-]. exists items, body, es. split; [reflexivity|].
    split; [exact (text_of _ _ _ T eq_refl)|]. split; [exact M|split; [exact A|reflexivity]].
  - intros (items & inner & es & -> & T & M & A & ->). cbn [bind]. rewrite items_toks, T, map_app, negb_involutive. change (map tok_of [LEof]) with [TEof].
    destruct (block_ok E d cwd g _ inner es M rd c c' PR GR W G eq_refl A (S (List.length (map tok_of (text inner) ++ [TEof]))) (Nat.eqb g 0) [TEof] None eq_refl eq_refl) as (p' & B).
    { rewrite app_length, map_length. cbn. lia. }
    unfold yields in B. rewrite B. reflexivity.
Qed.

Lemma readers E d : peer_reader E d (read_file E d) /\ group_reader E d (read_file E d).
Proof.
  induction d as [|d [PR GR]].
  - split.
    + intros cwd f g q c c' q' _. split; [discriminate|]. intros (d' & _ & _ & _ & X & _). discriminate X.
    + intros cwd f g c c' q' _ _. split; [discriminate|]. intros (d' & _ & _ & _ & X & _). discriminate X.
  - split.
    + intros cwd f g q c c' q' G. cbn [read_file]. split.
      * destruct (e_file E cwd f) as [[[contents sched] err]|] eqn:F; [|discriminate].
        destruct (e_cd E cwd (e_dirname E f)) as [dir|] eqn:CD; [|discriminate]. intros H.
        apply (read_peer_is E d _ _ _ _ _ _ _ _ _ _ PR G) in H. destruct H as (items & inner & ps & LX & T & M & -> & ->).
        exists d, dir, inner, ps. split; [reflexivity|]. split; [exists contents, sched, err, items; repeat split; assumption|]. split; [exact M|split; reflexivity].
      * intros (d' & dir & inner & ps & X & (contents & sched & err & items & F & CD & LX & T) & M & -> & ->). injection X as <-. rewrite F, CD.
        apply (read_peer_is E d _ _ _ _ _ _ _ _ _ _ PR G). exists items, inner, ps. repeat split; assumption.
    + intros cwd f g c c' q' W G. cbn [read_file]. split.
      * destruct (e_file E cwd f) as [[[contents sched] err]|] eqn:F; [|discriminate].
        destruct (e_cd E cwd (e_dirname E f)) as [dir|] eqn:CD; [|discriminate]. intros H.
        apply (read_group_is E d _ _ _ _ _ _ _ _ _ PR GR W G) in H. destruct H as (items & inner & es & LX & T & M & A & ->).
        exists d, dir, inner, es. split; [reflexivity|]. split; [exists contents, sched, err, items; repeat split; assumption|]. split; [exact M|split; [exact A|reflexivity]].
      * intros (d' & dir & inner & es & X & (contents & sched & err & items & F & CD & LX & T) & M & A & ->). injection X as <-. rewrite F, CD.
        apply (read_group_is E d _ _ _ _ _ _ _ _ _ PR GR W G). exists items, inner, es. repeat split; assumption.
Qed.

Lemma read_config_is E cwd name c c' : wfc c ->
  (read_config E cwd name c = Ok (Some c') <->
   exists dir body es, main_is E cwd name dir (text body ++ [LEof]) /\ means E 9 dir 0 (List.length (c_groups c)) body es /\ app_all E es c = Some c').
Proof.
  intros W. pose proof (wfc_pos c W) as G. unfold read_config.
  assert (Q : forall r : res (option (conf * option peer_conf)), (do r <- r; Ok (option_map fst r)) = Ok (Some c') <-> exists q, r = Ok (Some (c', q))).
  { intros [[[c1 q]|]| | |]; cbn; split; try discriminate; try (intros [q' X]; discriminate X).
    - intros [= ->]. exists q. reflexivity.
    - intros [q' [= -> ->]]. reflexivity. }
  destruct name as [name|]; rewrite Q; clear Q.
  - destruct (readers E max_depth) as [_ GR]. split.
    + intros [q H]. apply (GR cwd name 0%nat c c' q W G) in H. destruct H as (d & dir & inner & es & X & FI & M & A & _). injection X as <-.
      exists dir, inner, es. repeat split; assumption.
    + intros (dir & body & es & FI & M & A). exists None. apply (GR cwd name 0%nat c c' None W G). exists 9%nat, dir, body, es. repeat split; assumption.
  - destruct (readers E 9) as [PR GR]. change (max_depth - 1)%nat with 9%nat. destruct (e_stdin E) as [[contents sched] err] eqn:SI. split.
    + intros [q H]. apply (read_group_is E 9 _ _ _ _ _ _ _ _ _ PR GR W G) in H. destruct H as (items & inner & es & LX & T & M & A & _).
      exists cwd, inner, es. split; [split; [reflexivity|]; exists contents, sched, err, items; repeat split; assumption|]. split; assumption.
    + intros (dir & body & es & [-> (ct & sc & er & items & X & LX & T)] & M & A). rewrite SI in X. injection X as <- <- <-.
      exists None. apply (read_group_is E 9 _ _ _ _ _ _ _ _ _ PR GR W G). exists items, body, es. repeat split; assumption.
Qed.
