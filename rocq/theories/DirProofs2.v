(** Proofs about peer directories: when the program ends, and the order of the groups. *)
From Verif Require Import Base BufferModel LexModel LexSpec LexProofs4 ConfigModel ConfigSpec ConfigProofs ConfigProofs2 ConfigProofs3 ConfigProofs5 ConfigProofs6
  ConfigProofs8 ConfigProofs9 ConfigProofs10 ConfigProofs11 DirModel DirSpec DirProofs.
From Coq Require Import String.
Local Open Scope N_scope.

(** * When the program ends *)

Definition deep_call (E : env) (d : nat) (cwd f : bytes) : Prop :=
  d = O \/ exists d' dir inner, d = S d' /\ file_is E cwd f dir inner /\ deep E d' dir inner.
Definition deep_reader (E : env) (d : nat) (rd : reader) : Prop := forall cwd f g q c, (g < List.length (c_groups c))%nat -> rd cwd f g (Some q) c = Fatal -> deep_call E d cwd f.

Lemma deep_include E d cwd f body ps post : deep_call E d cwd f -> peer_means E d cwd body ps -> deep E d cwd (peer_text body ++ [K "include"; LStr f] ++ post).
Proof.
  intros [->|(d' & dir & inner & -> & FI & X)] M; [exact (deep_here E cwd body ps f post M)|exact (deep_file E d' cwd body ps f dir inner post M FI X)].
Qed.

Lemma peer_stmt_deep E d rd cwd t ts c g q : deep_reader E d rd -> (g < List.length (c_groups c))%nat ->
  peer_stmt E rd cwd t (Pst ts c g (Some q)) = Fatal -> exists f r, t :: ts = map tok_of [K "include"; LStr f] ++ r /\ deep_call E d cwd f.
Proof.
  intros FR G F. destruct t as [| | | | | | | |k|]; try discriminate F.
  assert (EZ : easy (peer_stmt E rd cwd (TKey k)) -> exists f r, TKey k :: ts = map tok_of [K "include"; LStr f] ++ r /\ deep_call E d cwd f) by (intros [L _]; destruct (L _ F)).
  destruct k; try discriminate F; try (apply EZ; cbn [peer_stmt]; solve [ez | apply easy_bnd; [apply easy_remote|intros ?; ez]]).
  - clear EZ. cbn [peer_stmt] in F. fstep F. repeat prim. fstep F. repeat prim. fstep F. repeat prim.
    apply fatal_easy_after in F; [|intros p; apply easy_bnd; [apply easy_set_peer|intros ?; ez]]. apply call_fatal in F. apply FR in F; [|exact G].
    eexists. eexists. split; [reflexivity|exact F].
  - apply EZ. cbn [peer_stmt]. ez. apply easy_lift. rewrite key_of_ok. discriminate.
Qed.

Lemma peer_block_deep E d rd cwd : peer_reader E d rd -> deep_reader E d rd -> forall fuel ts c g q, (g < List.length (c_groups c))%nat -> pc_group q = g ->
  peer_conf_block E fuel rd cwd (Pst ts c g (Some q)) = Fatal ->
  exists body ps f r, ts = map tok_of (peer_text body ++ [K "include"; LStr f]) ++ r /\ peer_means E d cwd body ps /\ deep_call E d cwd f.
Proof.
  intros PR FR. induction fuel as [|fuel IH]; intros ts c g q G Q F; [discriminate F|]. cbn [peer_conf_block] in F. fstep F.
  apply peek_inv in Y. destruct Y as (r & -> & -> & _). destruct (at_end x); [discriminate F|]. fstep F. apply next_inv in Y. destruct Y as (r' & X & ->). injection X as <- <-.
  apply fatal_bnd in F. destruct F as [F|(a & s' & Y & F)].
  - apply (peer_stmt_deep E d rd cwd _ _ _ _ _ FR G) in F. destruct F as (f & r' & -> & D). exists [], [], f, r'. split; [reflexivity|]. split; [constructor|exact D].
  - apply (peer_stmt_sound E d rd cwd _ _ _ _ _ _ _ PR G Q) in Y. destruct Y as (st & ps1 & r1 & -> & M & ->).
    apply IH in F; [|exact G|rewrite app_psets_group; exact Q]. destruct F as (body & ps & f & r2 & -> & PM & D).
    exists (st :: body), (ps1 ++ ps), f, r2. split; [|split; [apply M; exact PM|exact D]].
    unfold peer_text. cbn [flat_map]. rewrite app_assoc, <- map_app, <- app_assoc. reflexivity.
Qed.

Lemma read_file_deep E d : sane E -> deep_reader E d (read_file E d).
Proof.
  intros RS. induction d as [|d IH]; intros cwd f g q c G F; [left; reflexivity|]. right. cbn [read_file] in F.
  destruct (e_file E cwd f) as [[[contents sched] err]|] eqn:EF; [|discriminate]. destruct (e_cd E cwd _) as [dir|] eqn:CD; [|discriminate].
  unfold read_toks in F. destruct (lex_file_exact _ _ (proj1 RS) (proj2 RS) contents sched err) as (items & LX & _).
  rewrite LX in F. cbn [bind] in F. destruct (has_parent_total c g G) as [b HP]. rewrite HP in F. cbn [bind] in F. rewrite items_toks in F.
  destruct (readers E d) as [PR _].
  match type of F with context [peer_conf_block E ?n ?rd dir (Pst ?ts c g (Some ?x))] =>
    pose proof (peer_block_deep E d rd dir PR IH n ts c g x G eq_refl) as B;
    destruct (peer_conf_block E n rd dir (Pst ts c g (Some x))) as [[[u s1]|]| | |] end;
    cbn [bind] in F; try discriminate; try (destruct (ps_toks s1) as [|[] [|? ?]]; discriminate).
  destruct (B eq_refl) as (body & ps & f' & r & EQ & PM & DC). symmetry in EQ. destruct (split_toks _ _ _ EQ) as (post & TK & _).
  exists d, dir, (tokens items). split; [reflexivity|]. split; [exists contents, sched, err, items; repeat split; assumption|].
  rewrite TK, <- app_assoc. exact (deep_include E d dir f' body ps post DC PM).
Qed.

(** * Every outcome *)

Section Outcomes.
Variable T : tree.
Let E := t_env T.
Hypothesis RS : sane E.
Hypothesis NM : named T.

Definition fine (P : Prop) {A} (c : conf) (get : A -> conf) (r : res A) : Prop :=
  match r with Ok x => get x = c | Fatal => P | _ => False end.

Lemma read_names_total here dir g c : wfc c -> (g < List.length (c_groups c))%nat -> forall names, ~ In [] names ->
  fine (exists name d l, In name names /\ counts T here name /\ file_is E here name d l /\ deep E 9 d l) c fst (read_names T here dir g names c).
Proof.
  intros W G. induction names as [|name r IH]; intros N; cbn [read_names]; [reflexivity|].
  destruct (is_read_ok T here name) as (b & B & C); [intros ->; apply N; left; reflexivity|]. rewrite B. cbn [bind].
  assert (S : forall x, fst x = c -> fine (exists n d l, In n (name :: r) /\ counts T here n /\ file_is E here n d l /\ deep E 9 d l) c fst
    (do y <- read_names T here dir g r (fst x); Ok (fst y, snd x ++ snd y : list peer_conf))).
  { intros x ->. specialize (IH (fun I => N (or_intror I))). destruct (read_names T here dir g r c) as [[c2 l2]| | |]; cbn in *; try exact IH.
    destruct IH as (n & d & l & I & X). exists n, d, l. split; [right; exact I|exact X]. }
  destruct b; [|apply S; reflexivity]. specialize (S) as S'.
  destruct (read_peer T here dir name g c) as [[c1 l1]| | |] eqn:R.
  - cbn [bind]. apply S. cbn. apply (read_peer_ok T here dir name g c c1 l1 G) in R; [apply R|apply C; reflexivity].
  - exfalso. unfold read_peer in R. fold E in R.
    pose proof (read_file_calm E max_depth RS here name g (Some (set_pc_dir (Some dir) (new_peer (Some name) 0))) c W G) as K.
    destruct (read_file E max_depth here name g _ c) as [[[c1 [q|]]|]| | |]; cbn [bind] in R; try discriminate; try exact K.
  - cbn. unfold read_peer in R. fold E in R.
    match type of R with (do r <- ?m; _) = _ => destruct m as [[[c1 [q|]]|]| | |] eqn:RF end; cbn [bind] in R; try discriminate.
    apply (read_file_deep E max_depth RS here name g _ c G) in RF. destruct RF as [RF|(d' & d & l & X & FI & D)]; [discriminate|]. injection X as <-.
    exists name, d, l. split; [left; reflexivity|]. split; [apply C; reflexivity|]. split; assumption.
  - exfalso. unfold read_peer in R. fold E in R.
    pose proof (read_file_calm E max_depth RS here name g (Some (set_pc_dir (Some dir) (new_peer (Some name) 0))) c W G) as K.
    destruct (read_file E max_depth here name g _ c) as [[[c1 [q|]]|]| | |]; cbn [bind] in R; try discriminate; try exact K.
    destruct K as (_ & _ & K). apply K; [discriminate|reflexivity].
Qed.

Lemma read_dirs_total g c x : wfc c -> nth_error (c_groups c) g = Some x -> forall dirs cwd, (forall dir, In dir dirs -> In dir (gc_dirs x)) ->
  fine (too_deep T c) c (fun y => snd (fst y)) (read_dirs T cwd g dirs c).
Proof.
  intros W NX. assert (G : (g < List.length (c_groups c))%nat) by (apply nth_error_Some; congruence).
  induction dirs as [|dir r IH]; intros cwd S; cbn [read_dirs]; [reflexivity|].
  assert (S' : forall d, In d r -> In d (gc_dirs x)) by (intros d I; apply S; right; exact I).
  fold E. destruct (e_cd E cwd dir) as [here|] eqn:CD; [|apply IH; exact S'].
  unfold read_peer_dir. destruct (t_open T here) eqn:OP.
  - pose proof (read_names_total here dir g c W G (t_names T here) (NM here)) as R.
    destruct (read_names T here dir g (t_names T here) c) as [[c1 l1]| | |]; cbn in R; try (destruct R; fail).
    + subst c1. cbn [bind fst snd]. specialize (IH here S'). destruct (read_dirs T here g r c) as [[[w2 c2] l2]| | |]; cbn in *; exact IH.
    + cbn. destruct R as (name & d & l & I & C & FI & D). exists x, dir, cwd, here, name, d, l. split; [exact (nth_error_In _ _ NX)|].
      split; [apply S; left; reflexivity|]. repeat (split; [assumption|]). exact D.
  - cbn [bind fst snd]. specialize (IH here S'). destruct (read_dirs T here g r c) as [[[w2 c2] l2]| | |]; cbn in *; exact IH.
Qed.

Lemma read_peer_dirs_total g c cwd : wfc c -> (g < List.length (c_groups c))%nat ->
  fine (too_deep T c) c (fun y => snd (fst y)) (read_peer_dirs T cwd g c).
Proof.
  intros W G. unfold read_peer_dirs. destruct (nth_error (c_groups c) g) as [x|] eqn:NX; [|apply nth_error_None in NX; lia].
  pose proof (read_dirs_total g c x W NX (gc_dirs x) cwd (fun _ I => I)) as R. destruct (read_dirs T cwd g (gc_dirs x) c) as [[[w2 c2] l2]| | |]; cbn in *; exact R.
Qed.
End Outcomes.
