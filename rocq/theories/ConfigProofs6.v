(** Lists of statements, groups and files. *)
From Verif Require Import Base BufferModel MethodModel AddrModel LexModel LexSpec HexSpec ConfigModel ConfigSpec ConfigProofs ConfigProofs2 ConfigProofs3
  ConfigProofs4 ConfigProofs5.
From Verif Require NameModel.
From Coq Require Import String.
Local Open Scope N_scope.

(** * The effects, one by one *)

Definition set_hook (h : hook) : option command -> group_conf -> group_conf :=
  match h with Up => set_gc_up | Down => set_gc_down | Connect => set_gc_connect | Establish => set_gc_establish | Disestablish => set_gc_disestablish end.
Definition app_peer (q : peer_conf) (c : conf) : option conf :=
  match pc_key q with
  | None => None
  | Some k =>
      if existsb (fun q => match pc_key q with Some k' => bytes_eqb k k' | None => false end) (c_peers c) then None
      else Some (set_c_peers (c_peers c ++ [q]) c)
  end.
Definition app (E : env) (e : effect) (c : conf) : option conf :=
  match e with
  | ESet dir s => Some (app_set E dir s c)
  | EGroup g name => Some (set_c_groups (c_groups c ++ [new_group name (Some g)]) c)
  | ELimit g n => Some (update_group g (set_gc_limit (Some n)) c)
  | EMethod g s => Some (update_group g (fun x => set_gc_methods (NameModel.config_method (gc_methods x) s) x) c)
  | EOn g h x => Some (update_group g (set_hook h (Some x)) c)
  | EVerify g x => Some (set_c_verify_group (Some g) (set_c_verify (Some x) c))
  | EDir g d => Some (update_group g (fun x => set_gc_dirs (d :: gc_dirs x) x) c)
  | EPeer name g ps => app_peer (app_psets E ps (new_peer name g)) c
  end.
Fixpoint app_all (E : env) (es : list effect) (c : conf) : option conf :=
  match es with [] => Some c | e :: r => match app E e c with Some c => app_all E r c | None => None end end.
Lemma app_all_app E a b c : app_all E (a ++ b) c = match app_all E a c with Some c => app_all E b c | None => None end.
Proof. revert c. induction a as [|e a IH]; intros c; cbn [app_all List.app]; [reflexivity|]. destruct (app E e c); [apply IH|reflexivity]. Qed.

(** * The tree of groups *)

Definition parent_at (c : conf) (g : nat) : option (option nat) := option_map gc_parent (nth_error (c_groups c) g).
Definition wfc (c : conf) : Prop := parent_at c 0 = Some None /\ forall g, (0 < g < List.length (c_groups c))%nat -> exists p, parent_at c g = Some (Some p).

Lemma update_length {A} n (f : A -> A) l : List.length (update n f l) = List.length l.
Proof. revert n. induction l as [|x l IH]; intros [|n]; cbn [update List.length]; try reflexivity. rewrite IH. reflexivity. Qed.
Lemma update_nth {A} n (f : A -> A) l i : nth_error (update n f l) i = if Nat.eqb i n then option_map f (nth_error l i) else nth_error l i.
Proof.
  revert n i. induction l as [|x l IH]; intros [|n] [|i]; cbn [update nth_error Nat.eqb option_map]; try reflexivity.
  - destruct (Nat.eqb i n); reflexivity.
  - apply IH.
Qed.
Lemma app_bind_groups c b : c_groups (app_bind c b) = c_groups c /\ c_peers (app_bind c b) = c_peers c.
Proof. unfold app_bind. destruct (fits4 b && _), (fits6 b && _); split; reflexivity. Qed.
Lemma app_binds_groups l : forall c, c_groups (fold_left app_bind l c) = c_groups c /\ c_peers (fold_left app_bind l c) = c_peers c.
Proof.
  induction l as [|b l IH]; intros c; [split; reflexivity|]. cbn [fold_left]. destruct (IH (app_bind c b)) as [-> ->]. apply app_bind_groups.
Qed.
Lemma app_set_groups E dir s c : c_groups (app_set E dir s c) = c_groups c /\ c_peers (app_set E dir s c) = c_peers c.
Proof. destruct s; cbn [app_set]; try (split; reflexivity); try apply app_binds_groups; [destruct ident|destruct (b_offload _)]; split; reflexivity. Qed.

Lemma app_groups E e c c' : app E e c = Some c' ->
  (List.length (c_groups c') = List.length (c_groups c) + groups [e])%nat /\
  forall g, (g < List.length (c_groups c))%nat -> parent_at c' g = parent_at c g.
Proof.
  assert (U : forall g f c, (forall x, gc_parent (f x) = gc_parent x) ->
    (List.length (c_groups (update_group g f c)) = List.length (c_groups c) + 0)%nat /\
    forall i, (i < List.length (c_groups c))%nat -> parent_at (update_group g f c) i = parent_at c i).
  { intros g f c0 P. split; [cbn; rewrite update_length; lia|]. intros i I. unfold parent_at. cbn. rewrite update_nth.
    destruct (Nat.eqb i g); [|reflexivity]. destruct (nth_error (c_groups c0) i) as [x|]; [|reflexivity]. cbn. rewrite P. reflexivity. }
  destruct e; cbn [app]; intros H.
  - injection H as <-. destruct (app_set_groups E dir s c) as [G _]. unfold parent_at. rewrite G. cbn. split; [lia|reflexivity].
  - injection H as <-. cbn. rewrite app_length. cbn. split; [lia|]. intros g I. unfold parent_at. cbn. rewrite nth_error_app1 by exact I. reflexivity.
  - injection H as <-. apply U. reflexivity.
  - injection H as <-. apply U. reflexivity.
  - injection H as <-. apply U. destruct h; reflexivity.
  - injection H as <-. cbn. split; [lia|reflexivity].
  - injection H as <-. apply U. reflexivity.
  - unfold app_peer in H. destruct (pc_key _); [|discriminate]. destruct (existsb _ _); [discriminate|]. injection H as <-. cbn. split; [lia|reflexivity].
Qed.
Lemma heads_app a b : heads (a ++ b) = heads a ++ heads b.
Proof. apply flat_map_app. Qed.
Lemma groups_app a b : groups (a ++ b) = (groups a + groups b)%nat.
Proof. unfold groups. rewrite heads_app, app_length. reflexivity. Qed.
Lemma app_all_groups E es : forall c c', app_all E es c = Some c' ->
  (List.length (c_groups c') = List.length (c_groups c) + groups es)%nat /\
  forall g, (g < List.length (c_groups c))%nat -> parent_at c' g = parent_at c g.
Proof.
  induction es as [|e es IH]; intros c c' H; cbn [app_all] in H.
  - injection H as <-. cbn. split; [lia|reflexivity].
  - destruct (app E e c) as [c1|] eqn:A; [|discriminate]. destruct (app_groups E e c c1 A) as [L P]. destruct (IH _ _ H) as [L' P'].
    change (e :: es) with ([e] ++ es). rewrite groups_app. split; [lia|]. intros g I. rewrite P' by lia. apply P. exact I.
Qed.
Lemma app_wfc E e c c' : app E e c = Some c' -> wfc c -> wfc c'.
Proof.
  intros A [W0 W]. assert (L0 : (0 < List.length (c_groups c))%nat).
  { unfold parent_at in W0. destruct (c_groups c); [discriminate|cbn; lia]. }
  destruct (app_groups E e c c' A) as [L P]. split; [rewrite P by exact L0; exact W0|].
  intros g I. destruct (Nat.lt_ge_cases g (List.length (c_groups c))) as [Lt|Ge]; [rewrite P by exact Lt; apply W; lia|].
  destruct e; unfold groups in L; cbn in L; try lia.
  cbn in A. injection A as <-. exists parent. unfold parent_at. cbn in L, I |- *. rewrite app_length in I. cbn in I.
  rewrite nth_error_app2 by exact Ge. replace (g - List.length (c_groups c))%nat with O by lia. reflexivity.
Qed.
Lemma app_all_wfc E es : forall c c', app_all E es c = Some c' -> wfc c -> wfc c'.
Proof.
  induction es as [|e es IH]; intros c c' H W; cbn [app_all] in H; [injection H as <-; exact W|].
  destruct (app E e c) as [c1|] eqn:A; [|discriminate]. exact (IH _ _ H (app_wfc E e c c1 A W)).
Qed.
Lemma wfc_pos c : wfc c -> (0 < List.length (c_groups c))%nat.
Proof. intros [W _]. unfold parent_at in W. destruct (c_groups c); [discriminate|cbn; lia]. Qed.

Lemma peer_add_eq q ts c g p : peer_add q (Pst ts c g p) = match app_peer q c with None => Ok None | Some c' => Ok (Some (tt, Pst ts c' g p)) end.
Proof. unfold peer_add, app_peer. cbn. destruct (pc_key q); [|reflexivity]. destruct (existsb _ _); reflexivity. Qed.

(** * Statements *)

(** What a file read for a group does *)
Definition group_reader (E : env) (d : nat) (rd : reader) : Prop :=
  forall cwd f g c c' q', wfc c -> (g < List.length (c_groups c))%nat ->
    (rd cwd f g None c = Ok (Some (c', q')) <->
     exists d' dir inner es, d = S d' /\ file_is E cwd f dir (text inner ++ [LEof]) /\ means E d' dir g (List.length (c_groups c)) inner es /\
       app_all E es c = Some c' /\ q' = None).

(** One statement has been read and done *)
Definition did_stmt (E : env) (d : nat) (cwd : bytes) (ts : list tok) (c : conf) (g : nat) (s' : pst) : Prop :=
  exists st es r c' p', ts = map tok_of (stmt_text st) ++ r /\
    (forall body rest, means E d cwd g (List.length (c_groups c')) body rest -> means E d cwd g (List.length (c_groups c)) (st :: body) (es ++ rest)) /\
    app_all E es c = Some c' /\ s' = Pst r c' g p'.

Lemma did_one E d cwd ts c g s' st e r c' p' : ts = map tok_of (stmt_text st) ++ r ->
  (forall n body rest, means E d cwd g n body rest -> means E d cwd g n (st :: body) (e :: rest)) -> groups [e] = O ->
  app E e c = Some c' -> s' = Pst r c' g p' -> did_stmt E d cwd ts c g s'.
Proof.
  intros T M G A S. exists st, [e], r, c', p'. split; [exact T|]. split; [|split; [cbn; rewrite A; reflexivity|exact S]].
  intros body rest B. apply M. destruct (app_groups E e c c' A) as [L _]. rewrite G, Nat.add_0_r in L. rewrite <- L. exact B.
Qed.

Lemma global_stmt_sound E d cwd t ts c p u s' : yields (global_stmt E cwd t) (Pst ts c O p) u s' -> did_stmt E d cwd (t :: ts) c O s'.
Proof.
  intros H. apply global_sound in H. destruct H as (st & r & T & F & ->).
  eapply (did_one E d cwd _ c O _ (SSet st) (ESet cwd st)); [exact T| |reflexivity|reflexivity|reflexivity].
  intros n body rest M. apply m_set; assumption.
Qed.
Lemma group_command_sound E d cwd h k ts c g p u s' : tok_of (hook_text h) = TKey k ->
  yields (group_command cwd (set_hook h)) (Pst ts c g p) u s' -> did_stmt E d cwd (TKey Kon :: TKey k :: ts) c g s'.
Proof.
  intros HK H. unfold group_command in H. step H. apply sync_inv in H0. destruct H0 as (sy & r & -> & -> & ->).
  step H. prim. step H. prim. step H. prim. repeat prim.
  eapply (did_one E d cwd _ c g _ (SOn h sy a) (EOn g h (Command a cwd (is_sync sy)))); [| |reflexivity|reflexivity|reflexivity].
  - cbn [stmt_text]. rewrite !map_app. cbn [map List.app]. rewrite HK, <- app_assoc. reflexivity.
  - intros n body rest M. apply m_on. exact M.
Qed.
Lemma on_sound E d full cwd ts c g p u s' : full = Nat.eqb g 0 -> yields (on_stmt E full cwd) (Pst ts c g p) u s' -> did_stmt E d cwd (TKey Kon :: ts) c g s'.
Proof.
  intros FU H. unfold on_stmt in H. next H. destruct a as [| | | | | | | |k|]; try dead. destruct k; try dead.
  - exact (group_command_sound E d cwd Connect Kconnect _ _ _ _ _ _ tk_connect H).
  - exact (group_command_sound E d cwd Disestablish Kdisestablish _ _ _ _ _ _ tk_disestablish H).
  - exact (group_command_sound E d cwd Down Kdown _ _ _ _ _ _ tk_down H).
  - exact (group_command_sound E d cwd Establish Kestablish _ _ _ _ _ _ tk_establish H).
  - destruct (Nat.eqb g 0) eqn:G; [|dead]. apply Nat.eqb_eq in G. subst g. steps H. repeat prim.
    eapply (did_one E d cwd _ c O _ (SSet (SPostDown a)) (ESet cwd (SPostDown a))); [reflexivity| |reflexivity|reflexivity|reflexivity].
    intros n body rest M. apply m_set; [exact Logic.I|exact M].
  - destruct (Nat.eqb g 0) eqn:G; [|dead]. apply Nat.eqb_eq in G. subst g. steps H. repeat prim.
    eapply (did_one E d cwd _ c O _ (SSet (SPreUp a)) (ESet cwd (SPreUp a))); [reflexivity| |reflexivity|reflexivity|reflexivity].
    intros n body rest M. apply m_set; [exact Logic.I|exact M].
  - exact (group_command_sound E d cwd Up Kup _ _ _ _ _ _ tk_up H).
  - step H. apply sync_inv in H0. destruct H0 as (sy & r & -> & -> & ->). step H. prim. step H. prim. step H.
    destruct (b_dynamic (e_build E)) eqn:D; [|dead]. repeat prim.
    eapply (did_one E d cwd _ c g _ (SVerify sy a) (EVerify g (Command a cwd (is_sync sy)))); [| |reflexivity|reflexivity|reflexivity].
    + cbn [stmt_text]. rewrite !map_app. cbn [map List.app]. autorewrite with tk. rewrite <- app_assoc. reflexivity.
    + intros n body rest M. apply m_verify; assumption.
Qed.

Lemma include_sound E d rd cwd ts c g p u s' : peer_reader E d rd -> group_reader E d rd -> wfc c -> (g < List.length (c_groups c))%nat ->
  yields (include_stmt E rd cwd) (Pst ts c g p) u s' -> did_stmt E d cwd (TKey Kinclude :: ts) c g s'.
Proof.
  intros PR GR W G H. unfold include_stmt in H. next H. destruct a as [| | |f| | | | |k|]; try dead.
  - step H. prim. step H. apply call_inv in H0. destruct H0 as (c' & R & ->). repeat prim.
    apply (GR cwd f g c c' a W G) in R. destruct R as (d' & dir & inner & es & -> & FI & M & A & ->).
    exists (SInclude f), es. eexists. exists c', p. split; [reflexivity|]. split; [|split; [exact A|reflexivity]].
    intros body rest B. destruct (app_all_groups E es c c' A) as [L _]. rewrite L in B. exact (m_include _ _ _ _ _ _ _ _ _ _ _ FI M B).
  - destruct k; try dead.
    + step H. prim. step H. apply maybe_as_inv in H0. destruct H0 as (r & -> & ->). step H. prim.
      step H. apply call_inv in H0. destruct H0 as (c' & R & ->).
      apply (PR cwd a g (new_peer a0 0) c c' a1 G) in R. destruct R as (d' & dir & inner & ps & -> & FI & M & -> & ->).
      step H. unfold yields in H0. rewrite peer_add_eq in H0. destruct (app_peer _ c) as [c1|] eqn:A; [|discriminate]. injection H0 as <- <-. repeat prim.
      eapply (did_one E (S d') cwd _ c g _ (SIncludePeer a a0) (EPeer a0 g ps)); [| |reflexivity|exact A|reflexivity].
      * destruct a0; reflexivity.
      * intros n body rest B. exact (m_include_peer _ _ _ _ _ _ _ _ _ _ _ _ FI M B).
    + step H. prim. step H. prim. step H. prim. step H. unfold add_dir in H0. destruct (e_cd E cwd a0) as [abs|] eqn:CD; repeat prim.
      * eapply (did_one E d cwd _ c g _ (SIncludePeers a0) (EDir g abs)); [reflexivity| |reflexivity|reflexivity|reflexivity].
        intros n body rest M. exact (m_include_peers _ _ _ _ _ _ _ _ _ CD M).
      * exists (SIncludePeers a0), []. eexists. exists c, p. split; [reflexivity|]. split; [|split; reflexivity].
        intros body rest M. exact (m_include_peers_missing _ _ _ _ _ _ _ _ CD M).
Qed.

Lemma block_sound E d rd cwd : peer_reader E d rd -> group_reader E d rd ->
  forall fuel full ts c g p u s', wfc c -> (g < List.length (c_groups c))%nat -> full = Nat.eqb g 0 ->
  yields (block E fuel full rd cwd) (Pst ts c g p) u s' ->
  exists body es r c' p', ts = map tok_of (text body) ++ r /\ means E d cwd g (List.length (c_groups c)) body es /\ app_all E es c = Some c' /\
    s' = Pst r c' g p' /\ ended r.
Proof.
  intros PR GR. induction fuel as [|f IH]; intros full ts c g p u s' W G FU H; [discriminate H|]. cbn [block] in H.
  step H. destruct (at_end a) eqn:A.
  - destruct (block_end_inv _ _ _ _ _ _ H0 A) as [N ->]. apply ret_inv in H. destruct H as [_ ->].
    exists [], [], ts, c, p. split; [reflexivity|]. split; [constructor|]. split; [reflexivity|]. split; [reflexivity|exact N].
  - apply peek_inv in H0. destruct H0 as (r & -> & -> & _). step H. apply next_inv in H0. destruct H0 as (r' & Er & ->). injection Er as <- <-. step H.
    assert (D : did_stmt E d cwd (a :: r) c g s).
    { clear H A.
      assert (GL : yields (if full then global_stmt E cwd a else fail) (Pst r c g p) a0 s -> did_stmt E d cwd (a :: r) c g s).
      { destruct full; [|intros X; discriminate X]. symmetry in FU. apply Nat.eqb_eq in FU. subst g. apply global_stmt_sound. }
      destruct a as [| | | | | | | |k|]; try exact (GL H0). destruct k; try exact (GL H0); clear GL.
      - (* include *) exact (include_sound E d rd cwd _ _ _ _ _ _ PR GR W G H0).
      - (* method *) steps H0. repeat prim. eapply (did_one E d cwd _ c g _ (SMethod a) (EMethod g a)); [reflexivity| |reflexivity|reflexivity|reflexivity].
        intros n body rest M. apply m_method. exact M.
      - (* on *) exact (on_sound E d full cwd _ _ _ _ _ _ FU H0).
      - (* peer *) next H0. destruct a as [| | |name| | | | |k|]; try dead; [|destruct k; try dead].
        + step H0. prim. step H0. prim. step H0. prim. step H0.
          destruct (peer_block_sound E d rd cwd PR f _ c g (new_peer (Some name) g) _ _ G eq_refl H) as (body & ps & r' & -> & M & -> & N).
          step H0. prim. unfold peer_after in H0. step H0. prim. unfold yields in H0. rewrite peer_add_eq in H0.
          destruct (app_peer _ c) as [c1|] eqn:A; [|discriminate]. injection H0 as <- <-.
          eapply (did_one E d cwd _ c g _ (SPeer name body) (EPeer (Some name) g ps)); [| |reflexivity|exact A|reflexivity].
          * cbn [stmt_text]. rewrite !map_app. cbn [map List.app]. rewrite <- app_assoc. reflexivity.
          * intros n b rest M'. apply m_peer; assumption.
        + step H0. prim. step H0. unfold push_group, yields in H. cbn in H. injection H as <- <-. step H0. prim. step H0.
          set (c0 := set_c_groups (c_groups c ++ [new_group a (Some g)]) c) in *.
          assert (A0 : app E (EGroup g a) c = Some c0) by reflexivity.
          destruct (app_groups E _ _ _ A0) as [L0 P0]. unfold groups in L0. cbn in L0.
          assert (W0 : wfc c0) by exact (app_wfc E _ _ _ A0 W). pose proof (wfc_pos c W) as POS.
          apply IH in H; [|exact W0|cbn; rewrite app_length; cbn; lia|symmetry; apply Nat.eqb_neq; lia].
          destruct H as (body & es & r' & c1 & p1 & -> & M & A1 & -> & N).
          step H0. prim. unfold pop_group, yields in H0. cbn [ps_conf ps_group ps_toks ps_peer] in H0.
          destruct (app_all_groups E es c0 c1 A1) as [L1 P1].
          assert (PA : parent_at c1 (List.length (c_groups c)) = Some (Some g)).
          { rewrite P1 by (cbn; rewrite app_length; cbn; lia). unfold parent_at. cbn. rewrite nth_error_app2, Nat.sub_diag by lia. reflexivity. }
          unfold parent_at in PA. destruct (nth_error (c_groups c1) _) as [gr|]; [|discriminate]. cbn in PA. injection PA as PA. rewrite PA in H0.
          injection H0 as <- <-.
          exists (SGroup a body), (EGroup g a :: es). eexists. exists c1, p1. split; [|split; [|split; [|reflexivity]]].
          * cbn [stmt_text]. rewrite !map_app. cbn [map List.app]. autorewrite with tk. rewrite <- app_assoc. reflexivity.
          * intros b rest B. cbn [List.app].
            assert (L2 : List.length (c_groups c0) = S (List.length (c_groups c))) by (cbn; rewrite app_length; cbn; lia). rewrite L2 in *.
            apply m_group; [exact M|]. replace (S (List.length (c_groups c)) + groups es)%nat with (List.length (c_groups c1)) by lia. exact B.
          * cbn [app_all]. rewrite A0. exact A1.
        + steps H0. destruct (2 ^ 31 - 1 <? a) eqn:LI; [dead|]. repeat prim.
          eapply (did_one E d cwd _ c g _ (SLimit a) (ELimit g a)); [reflexivity| |reflexivity|reflexivity|reflexivity].
          intros n body rest M. apply m_limit; [lia|exact M]. }
    destruct D as (st & es & r1 & c1 & p1 & T & M & A1 & ->).
    destruct (app_all_groups E es c c1 A1) as [L1 _].
    destruct (IH full r1 c1 g p1 _ _ (app_all_wfc E es c c1 A1 W) ltac:(lia) FU H) as (body & es' & r2 & c2 & p2 & -> & M2 & A2 & -> & N).
    exists (st :: body), (es ++ es'), r2, c2, p2. split; [|split; [apply M; exact M2|split; [|split; [reflexivity|exact N]]]].
    + etransitivity; [exact T|]. unfold text. cbn [flat_map]. rewrite map_app, <- app_assoc. reflexivity.
    + rewrite app_all_app, A1. exact A2.
Qed.
